(** Model of parts of odata2/csdl.py: the check of $expand and $select
    (EntityType.ValidateExpansion, 3396-3454), what they do to an entity (Entity.Expand and
    Selected, 2130-2187), copying of values (Complex.SetFromComplex, 1679-1703,
    Entity.SetFromEntity, 1969-1996) and concurrency tokens (ETag, GenerateConcurrencyHash,
    SetConcurrencyTokens, 2189-2309). *)
From Verif Require Import Py Iso Dec EdmLit.
Open Scope Z_scope.
Open Scope list_scope.

(** ** Options *)
(** The value of $expand or $select: a dictionary of names, to None or a dictionary again *)
Inductive tree := TNone | TDict (d : items)
with items := INil | ICons (name : str) (t : tree) (rest : items).
Fixpoint find (n : str) (d : items) : option tree :=
  match d with
  | INil => None
  | ICons m t r => if str_eqb m n then Some t else find n r
  end.
(** [if expand is None: expand={}] *)
Definition dict (t : tree) : items := match t with TNone => INil | TDict d => d end.
Definition star : str := lit "*".

Section Types.
(** Entity types are numbers; typeDef[name] is a property, a navigation property with the type
    at its other end, or KeyError *)
Inductive member := Data | Nav (target : nat).
Variable schema : nat -> str -> option member.
(** csdl.py 3396-3454 with select None, as it is called for what is expanded only *)
Fixpoint expand_ok (T : nat) (e : items) {struct e} : bool :=
  match e with
  | INil => true
  | ICons n t r =>
      match schema T n with
      | Some (Nav U) => match t with TNone => true | TDict d => expand_ok U d end
      | _ => false
      end && expand_ok T r
  end.
(** The second loop (3440-3454): names selected as well have been checked before *)
Fixpoint expand_rest (T : nat) (s e : items) {struct e} : bool :=
  match e with
  | INil => true
  | ICons n t r =>
      match schema T n with
      | Some (Nav U) => match find n s with Some _ => true | None => expand_ok U (dict t) end
      | _ => false
      end && expand_rest T s r
  end.
(** The first loop (3418-3439); [false] is ValueError *)
Fixpoint select_loop (T : nat) (e s : items) {struct s} : bool :=
  match s with
  | INil => true
  | ICons n t r =>
      (if str_eqb n star then match t with TNone => true | TDict _ => false end
       else match schema T n with
            | Some Data => match t with TNone => true | TDict _ => false end
            | Some (Nav U) =>
                let sub := match find n e with Some t' => dict t' | None => INil end in
                match t with
                | TNone => expand_rest U INil sub
                | TDict d => select_loop U sub d && expand_rest U d sub
                end
            | None => false
            end)
      && select_loop T e r
  end.
Definition ValidateExpansion (T : nat) (expand select : tree) : bool :=
  select_loop T (dict expand) (dict select) && expand_rest T (dict select) (dict expand).
End Types.

(** ** Values *)
(** A simple value, which may be NULL, or a complex value with its properties; of a simple value
    only the literal matters here *)
Inductive value := Simple (v : option str) | Complex (fs : fields)
with fields := FNil | FCons (name : str) (v : value) (rest : fields).
Fixpoint field (n : str) (fs : fields) : option value :=
  match fs with
  | FNil => None
  | FCons m v r => if str_eqb m n then Some v else field n r
  end.
(** SimpleValue.SetNull 910-912, Complex.SetNull 1674-1677 *)
Fixpoint set_null (v : value) : value :=
  match v with Simple _ => Simple None | Complex fs => Complex (null_fields fs) end
with null_fields (fs : fields) : fields :=
  match fs with FNil => FNil | FCons n v r => FCons n (set_null v) (null_fields r) end.

(** A data property of an entity: its name, whether it is of the key, whether its concurrency
    mode is Fixed, and its value *)
Record prop := mkProp { p_name : str; p_key : bool; p_fixed : bool; p_value : value }.
Record entity := mkEnt { e_props : list prop; e_navs : list str; e_selected : option (list str) }.
Definition in_dict (n : str) (d : items) : bool := match find n d with Some _ => true | None => false end.
(** csdl.py 2151-2166 Expand: what is selected *)
Definition select_names (d : items) (x : entity) : list str :=
  filter (fun n => in_dict n d) (map p_name (e_props x) ++ e_navs x)
  ++ (if in_dict star d then map p_name (e_props x) else []).
Definition mem (n : str) (l : list str) : bool := existsb (str_eqb n) l.
Definition select_entity (select : option items) (x : entity) : entity :=
  match select with
  | None => mkEnt (e_props x) (e_navs x) None
  | Some d =>
      let sel := select_names d x in
      mkEnt (if in_dict star d then e_props x
             else map (fun p => if p_key p || mem (p_name p) sel then p
                                else mkProp (p_name p) (p_key p) (p_fixed p) (set_null (p_value p))) (e_props x))
            (e_navs x) (Some sel)
  end.
(** csdl.py 2167-2180 Expand: the calls of ExpandCollection, for each the navigation property,
    what to expand and what to select *)
Definition expansions (expand : tree) (select : option items) (x : entity) : list (str * tree * option items) :=
  flat_map (fun n =>
    match find n (dict expand) with
    | None => []
    | Some t =>
        [(n, t, match select with
                | None => None
                | Some d => match find n d with
                            | None => None
                            | Some TNone => Some (ICons star TNone INil)
                            | Some (TDict d') => Some d'
                            end
                end)]
    end) (e_navs x).
(** csdl.py 2186-2187 *)
Definition Selected (n : str) (x : entity) : bool :=
  match e_selected x with None => true | Some l => mem n l end.

(** ** Copying *)
(** csdl.py 1679-1703 SetFromComplex: [self[k].SetFromSimpleValue(v)] and
    [self[k].SetFromComplex(v)], where v is self[k] itself *)
Fixpoint self_set (v : value) : value :=
  match v with Simple s => Simple s | Complex fs => Complex (self_fields fs) end
with self_fields (fs : fields) : fields :=
  match fs with FNil => FNil | FCons n v r => FCons n (self_set v) (self_fields r) end.
Fixpoint SetFromComplex (fs : fields) (new : fields) : result fields :=
  match fs with
  | FNil => Ok FNil
  | FCons n v r =>
      v' <- match field n new with
            | None => Ok v
            | Some nv =>
                match v, nv with
                | Complex _, Complex _ => Ok (self_set v)
                | Complex _, Simple _ => Err ValueError
                | Simple _, Complex _ => Ok v
                | Simple _, Simple _ => Ok (self_set v)
                end
            end ;;
      r' <- SetFromComplex r new ;;
      Ok (FCons n v' r')
  end.
(** csdl.py 1969-1996 SetFromEntity: newValue becomes the value of a property, whose get is
    looked up at the next one; simple values have none *)
Fixpoint SetFromEntity (ps : list prop) (new : value) : result (list prop) :=
  match ps with
  | [] => Ok []
  | p :: ps' =>
      if p_key p then r <- SetFromEntity ps' new ;; Ok (p :: r)
      else
        match new with
        | Simple _ => Err AttributeError
        | Complex fs =>
            match field (p_name p) fs with
            (* newValue is None now, and None has no get *)
            | None => if forallb p_key ps' then Ok ps else Err AttributeError
            | Some nv => r <- SetFromEntity ps' nv ;; Ok (p :: r)
            end
        end
  end.

(** ** Concurrency tokens *)
(** csdl.py 2218-2250 GenerateConcurrencyHash, UpdateComplexHash: the text that is hashed; the
    literals are those of unicode(v), encoded in UTF-8, which keeps them apart as they are *)
Fixpoint hash_value (v : value) : str :=
  match v with
  | Simple None => []
  | Simple (Some s) => s
  | Complex fs => hash_fields fs
  end
with hash_fields (fs : fields) : str :=
  match fs with FNil => [] | FCons _ v r => hash_value v ++ hash_fields r end.
Definition hash_input (ps : list prop) : str :=
  flat_map (fun p => if p_fixed p || p_key p then [] else hash_value (p_value p)) ps.
(** csdl.py 2189-2203 ETag: the tokens that are selected and not NULL *)
Definition ETag (x : entity) : option (list value) :=
  match flat_map (fun p => if p_fixed p && Selected (p_name p) x
                           then match p_value p with Simple None => [] | v => [v] end else []) (e_props x) with
  | [] => None
  | l => Some l
  end.
(** What SetConcurrencyTokens does to one token (2270-2309).  The digest, a string, is a
    parameter; [int_type] tells the integer types.  The tuple of the fourth test names
    DateTimeOffset, which is not defined, so that every type that gets there raises NameError. *)
Inductive token :=
| TBin (max : option nat) (fixed : bool) (v : option str)     (* Edm.Binary *)
| TStr (max : option nat) (fixed : bool) (v : option str)     (* Edm.String *)
| TInt (t : int_type) (v : option Z)
| TOther (v : option str).                                    (* Edm.DateTime, Edm.Guid, others *)
(** h[len(h)-maxLength:], and ljust *)
Definition fit (pad : Z) (max : option nat) (fixed : bool) (h : str) : str :=
  match max with
  | None => h
  | Some m =>
      let h := if (m <? length h)%nat then skipn (length h - m) h else h in
      if fixed then h ++ repeat pad (m - length h) else h
  end.
Definition next_token (digest hexdigest : str) (t : token) : result token :=
  match t with
  | TBin m f _ => Ok (TBin m f (Some (fit 0 m f digest)))
  | TStr m f _ => Ok (TStr m f (Some (fit 48 m f hexdigest)))
  | TInt i v =>
      match i with
      | Int16 | Int32 | Int64 =>
          v' <- set_int i (match v with None => 1 | Some n => n + 1 end) 1 ;; Ok (TInt i (Some v'))
      | Byte | SByte => Err NameError
      end
  | TOther _ => Err NameError
  end.
