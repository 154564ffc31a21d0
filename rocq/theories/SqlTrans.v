(** Transactions of the SQL data source: SQLTransaction and the methods that insert, update, link and
    delete entities with it.  pyslet/pyslet/odata2/sqlds.py 119-237, 304-347, 498-531, 1138-1329, 1331-1484,
    1486-1555, 1563-1645, 1647-1706, 1708-1758, 2085-2139, 2265-2312, 2329-2376.

    Simplified: a statement is one of the kinds the methods issue, with keys as numbers; the database is
    any function of it.  Method bodies are trees, so a body may do anything that depends on the rows it
    was given (or, for changes, on how many were changed); loops over bindings appear unrolled.  Logging is left out.  entity.exists is a list of the
    keys of entities marked so far. *)
From Coq Require Import List Arith Bool.
Import ListNotations.

(** Exceptions: dbapi.IntegrityError, other dbapi.Error, SQLError (not a dbapi.Error), edm.ConstraintError,
    edm.NavigationError, KeyError, EntityExists, NameError, any other *)
Inductive err := Integrity | DbError | SQLErr | Constraint | Navigation | KeyErr | EntityExists | NameErr | Other (n : nat).
Definition dbapi_error (e : err) : bool := match e with Integrity | DbError => true | _ => false end.

(** Method bodies over statements of type Q.  Rows are lists of numbers.
    [Call true]: the transaction is passed on; [Call false]: the method makes its own, on the connection
    that the thread already has (AcquireConnection, 264, gives the thread the same one) *)
Inductive method (Q : Type) := Method (integrity : option err) (b : body Q)
with body (Q : Type) :=
| Return (rows : list nat)
| Raise (e : err)
| Execute (q : Q) (k : list nat -> body Q)
| Mark (x : nat) (k : body Q)
| Call (shared : bool) (m : method Q) (k : list nat -> body Q).
Arguments Method {Q}. Arguments Return {Q}. Arguments Raise {Q}. Arguments Execute {Q}. Arguments Mark {Q}. Arguments Call {Q}.

(** The transaction object: 150-155 *)
Record trans := mkTrans { cursor : bool; noCommit : nat; queryCount : nat }.
Definition new_trans : trans := mkTrans false 0 0.

Section Transactions.
Variables (Q DB : Type).
(** The database: cursor.execute, whether dbc.cursor() and dbc.commit() succeed, whether rollback is
    supported *)
Variable execute : Q -> DB -> (DB * list nat) + err.
Variable cursor_fails commit_fails : DB -> option err.
Variable supported : bool.

(** The connection: what other connections see, what this one sees; what was committed, latest first;
    the entities marked as existing *)
Record connection := mkConn { stable : DB; current : DB; published : list DB; marks : list nat }.

(** 157-165 *)
Definition Begin (t : trans) (c : connection) : trans * option err :=
  if cursor t then (mkTrans true (S (noCommit t)) (queryCount t), None)
  else match cursor_fails (current c) with
       | Some e => (t, Some e)
       | None => (mkTrans true (noCommit t) (queryCount t), None)
       end.
(** 179-185 *)
Definition Commit (t : trans) (c : connection) : connection * option err :=
  match noCommit t with
  | S _ => (c, None)
  | O => match commit_fails (current c) with
         | Some e => (c, Some e)
         | None => (mkConn (current c) (current c) (current c :: published c) (marks c), None)
         end
  end.
(** 187-225 with err; the name transaction is not defined in it, 214 *)
Definition Rollback (t : trans) (c : connection) (e : err) (swallow : bool) : connection * option err :=
  let reraise := if swallow then None else Some (if dbapi_error e then SQLErr else e) in
  match noCommit t with
  | S _ => (c, reraise)
  | O => if supported then (mkConn (stable c) (stable c) (published c) (marks c), reraise) else (c, Some NameErr)
  end.
(** 227-237 *)
Definition Close (t : trans) : trans :=
  match noCommit t with
  | S n => mkTrans (cursor t) n (queryCount t)
  | O => if cursor t then mkTrans false 0 0 else t
  end.

(** The pattern of all the methods, for instance 1227-1329; [integrity]: what is raised for an
    IntegrityError if there is a clause for it.  A body gives rows or raises *)
Fixpoint run_method (m : method Q) (t : trans) (c : connection) : trans * connection * (list nat + err) :=
  match m with
  | Method integrity b =>
      let '(t1, e0) := Begin t c in
      let '(t2, c2, r) := match e0 with Some e => (t1, c, inr e) | None => run_body b t1 c end in
      let '(c3, r3) := match r with
                       | inl rows => let '(c', e) := Commit t2 c2 in (c', match e with Some e => inr e | None => inl rows end)
                       | inr e => (c2, inr e)
                       end in
      let '(c4, r4) := match r3 with
                       | inl rows => (c3, inl rows)
                       | inr e =>
                           match e, integrity with
                           | Integrity, Some e' => let '(c', x) := Rollback t2 c3 e true in (c', inr (match x with Some x => x | None => e' end))
                           | _, _ => let '(c', x) := Rollback t2 c3 e false in (c', inr (match x with Some x => x | None => e end))
                           end
                       end in
      (Close t2, c4, r4)
  end
with run_body (b : body Q) (t : trans) (c : connection) : trans * connection * (list nat + err) :=
  match b with
  | Return rows => (t, c, inl rows)
  | Raise e => (t, c, inr e)
  | Execute q k =>
      (* 167-177 *)
      match execute q (current c) with
      | inl (d, rows) => run_body (k rows) (mkTrans (cursor t) (noCommit t) (S (queryCount t))) (mkConn (stable c) d (published c) (marks c))
      | inr e => (t, c, inr e)
      end
  | Mark x k => run_body k t (mkConn (stable c) (current c) (published c) (x :: marks c))
  | Call true m k =>
      let '(t', c', r) := run_method m t c in
      match r with inl rows => run_body (k rows) t' c' | inr e => (t', c', inr e) end
  | Call false m k =>
      let '(_, c', r) := run_method m new_trans c in
      match r with inl rows => run_body (k rows) t c' | inr e => (t, c', inr e) end
  end.
End Transactions.
Arguments mkConn {DB}. Arguments stable {DB}. Arguments current {DB}. Arguments published {DB}. Arguments marks {DB}.

(** ** The methods of the collections *)
(** Statements: INSERT of an entity with the keys of its links, SELECT of an entity, UPDATE of an entity,
    DELETE of it; INSERT or UPDATE of a link and the DELETE of it or of all of an entity; SELECT of the
    entities linked to one *)
Inductive statement :=
| InsertRow (x : nat) (fk : list nat) | SelectRow (x : nat) | UpdateRow (x : nat) (fk : list nat) | DeleteRow (x : nat)
| SetLink (l : nat) (x y : nat) | UnsetLink (l : nat) (x y : nat) | UnsetLinks (l : nat) (x : nat) | SelectLinks (l : nat) (x : nat).

(** 498-531 __getitem__: no transaction can be passed *)
Definition getitem (x : nat) : method statement :=
  Method None (Execute (SelectRow x) (fun rows => match rows with [] => Raise KeyErr | [_] => Return [x] | _ => Raise SQLErr end)).
(** 324-347 the values of a navigation collection, as a list *)
Definition values (l x : nat) : method statement := Method None (Execute (SelectLinks l x) Return).
(** 1486-1555 UpdateLink with noReplace, 2265-2295 InsertLink: [aux] the link is a row of its own table *)
Definition InsertLink (aux : bool) (l x y : nat) : method statement :=
  Method (Some (if aux then Navigation else KeyErr))
    (Execute (SetLink l x y) (fun rows => if aux then Return [] else match rows with [] => Raise Navigation | _ => Return [] end)).
(** 1647-1706, 2329-2353 DeleteLink *)
Definition DeleteLink (l x y : nat) : method statement :=
  Method None (Execute (UnsetLink l x y) (fun rows => match rows with [] => Raise KeyErr | _ => Return [] end)).
(** 1708-1758 and 2355-2376 ClearLinks *)
Definition ClearLinks (aux : bool) (l x : nat) : method statement :=
  Method (if aux then None else Some Navigation) (Execute (UnsetLinks l x) (fun _ => Return [])).
(** 2091-2108, 2297-2312 ReplaceLink *)
Definition ReplaceLink (aux : bool) (l x y : nat) : method statement :=
  Method (Some Navigation) (Call true (ClearLinks aux l x) (fun _ => Call true (InsertLink aux l x y) Return)).

(** An entity not yet stored: its key and its bindings.  A binding is a key or an entity, which exists
    already or not; it is bound to a link whose key is held in the entity's own row, in the row of the
    other entity, or in an auxiliary table *)
Inductive where_kept := Here | There | Aux.
Inductive entity := Entity (x : nat) (bindings : list (nat * where_kept * binding))
with binding := ByKey (y : nat) | Existing (y : nat) | New (e : entity).
Definition key (e : entity) : nat := match e with Entity x _ => x end.
Definition target (b : binding) : nat := match b with ByKey y | Existing y => y | New e => key e end.
Definition here (w : where_kept) : bool := match w with Here => true | _ => false end.
Definition aux (w : where_kept) : bool := match w with Aux => true | _ => false end.
Definition foreign_keys (bs : list (nat * where_kept * binding)) : list nat :=
  map (fun p => target (snd p)) (filter (fun p => here (snd (fst p))) bs).

(** 1145-1329 InsertEntitySQL; [fk] is fkValues.  Step 1: the bindings kept here; step 2: the row;
    step 3: the other bindings.  The checks of required links, 1231-1251, are left out *)
Fixpoint InsertEntitySQL (e : entity) (fk : list nat) : method statement :=
  match e with
  | Entity x bs =>
      let step3 := fix step3 l : body statement :=
        match l with
        | [] => Return []
        | (n, w, b) :: l' =>
            if here w then step3 l'
            else
              match b with
              | ByKey y => Call false (getitem y) (fun _ => Call true (InsertLink (aux w) n x y) (fun _ => step3 l'))
              | Existing y => Call true (InsertLink (aux w) n x y) (fun _ => step3 l')
              | New e' =>
                  if aux w then Call true (InsertEntitySQL e' []) (fun _ => Call true (InsertLink true n x (key e')) (fun _ => step3 l'))
                  else Call true (InsertEntitySQL e' [x]) (fun _ => step3 l')
              end
        end in
      let step1 := fix step1 l : body statement :=
        match l with
        | [] => Execute (InsertRow x (fk ++ foreign_keys bs)) (fun _ => Mark x (step3 bs))
        | (n, w, b) :: l' =>
            if here w then
              match b with
              | ByKey y => Call false (getitem y) (fun _ => step1 l')
              | Existing y => step1 l'
              | New e' => Call true (InsertEntitySQL e' []) (fun _ => step1 l')
              end
            else step1 l'
        end in
      Method (Some Constraint) (step1 bs)
  end.

(** 1331-1484 UpdateEntity; [multi]: the navigation property is a collection; for an entity with an
    auxiliary table the transaction is not passed on (1471) *)
Fixpoint update3 (multi : nat -> bool) (x : nat) (l : list (nat * where_kept * binding)) : body statement :=
  match l with
  | [] => Return []
  | (n, w, b) :: l' =>
      if here w then update3 multi x l'
      else
        let link y k := Call true (if multi n then InsertLink (aux w) n x y else ReplaceLink (aux w) n x y) (fun _ => k) in
        match b with
        | ByKey y => Call false (getitem y) (fun _ => link y (update3 multi x l'))
        | Existing y => link y (update3 multi x l')
        | New e' =>
            if aux w then Call false (InsertEntitySQL e' []) (fun _ => link (key e') (update3 multi x l'))
            else
              let insert := Call true (InsertEntitySQL e' [x]) (fun _ => update3 multi x l') in
              if multi n then insert else Call true (ClearLinks false n x) (fun _ => insert)
        end
  end.
Fixpoint update1 (multi : nat -> bool) (x : nat) (bs l : list (nat * where_kept * binding)) : body statement :=
  match l with
  | [] => Execute (UpdateRow x (foreign_keys bs)) (fun rows => match rows with [] => Raise KeyErr | _ => update3 multi x bs end)
  | (n, w, b) :: l' =>
      if here w then
        match b with
        | ByKey y => Call false (getitem y) (fun _ => update1 multi x bs l')
        | Existing y => update1 multi x bs l'
        | New e' => Call true (InsertEntitySQL e' []) (fun _ => update1 multi x bs l')
        end
      else update1 multi x bs l'
  end.
Definition UpdateEntity (multi : nat -> bool) (x : nat) (bs : list (nat * where_kept * binding)) : method statement :=
  Method (Some Constraint) (update1 multi x bs bs).

(** 1563-1645 DeleteEntity.  The links of an entity set whose keys are kept elsewhere: dropped, or, if
    the other entity needs this one, deleted with it *)
Inductive links := Links (l : list (nat * (bool + links))).
Fixpoint DeleteEntity (s : links) (x : nat) : method statement :=
  match s with
  | Links l =>
      let ends := fix ends l : body statement :=
        match l with
        | [] => Execute (DeleteRow x) (fun rows => match rows with [] => Raise KeyErr | [_] => Return [] | _ => Raise SQLErr end)
        | (n, inl a) :: l' => Call true (ClearLinks a n x) (fun _ => ends l')
        | (n, inr s') :: l' =>
            Call false (values n x) (fun ys =>
              (fix each ys := match ys with
                              | [] => ends l'
                              | y :: ys' => Call true (DeleteLink n x y) (fun _ => Call true (DeleteEntity s' y) (fun _ => each ys'))
                              end) ys)
        end in
      Method None (ends l)
  end.

(** 1138-1143, 1220-1221 InsertEntity: an entity marked as existing is refused before anything else *)
Definition InsertEntity {DB} (execute : statement -> DB -> (DB * list nat) + err) (cursor_fails commit_fails : DB -> option err) (supported : bool)
  (e : entity) (c : connection DB) : connection DB * (list nat + err) :=
  if existsb (Nat.eqb (key e)) (marks c) then (c, inr EntityExists)
  else let '(_, c', r) := run_method _ _ execute cursor_fails commit_fails supported (InsertEntitySQL e []) new_trans c in (c', r).
