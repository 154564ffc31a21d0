(** Model of the in-memory OData container: pyslet/pyslet/odata2/memds.py (entity stores,
    association indexes, entity and navigation collections) together with the parts of
    pyslet/pyslet/odata2/csdl.py they rely on (key checks 2698-2704, navigation constraints
    1816-1825 and 2015-2037, bindings 1827-1857).

    Not modelled: the container lock (operations are taken one at a time, each runs with
    the lock held), the metadata document itself (a [schema] gives the entity sets and
    associations after UpdateNavigation, csdl.py 3776-3800), complex values (a property
    value is opaque), expand rules and the OData expression of a filter (a filter is any
    boolean function of the stored row). *)
From Verif Require Import Py.
From Coq Require Import Lia.

(** ** Keys *)

(** Entity.Key: csdl.py 2086-2107.  A single property value or a tuple. *)
Inductive atom := AInt (n : Z) | AStr (s : list Z).
Inductive key := KOne (a : atom) | KTuple (l : list atom).

Definition atom_eqb (a b : atom) : bool :=
  match a, b with
  | AInt m, AInt n => m =? n
  | AStr s, AStr t => str_eqb s t
  | _, _ => false
  end.
Fixpoint atoms_eqb (l m : list atom) : bool :=
  match l, m with
  | [], [] => true
  | a :: l', b :: m' => atom_eqb a b && atoms_eqb l' m'
  | _, _ => false
  end.
Definition key_eqb (k l : key) : bool :=
  match k, l with
  | KOne a, KOne b => atom_eqb a b
  | KTuple a, KTuple b => atoms_eqb a b
  | _, _ => false
  end.

(** ** Python dictionaries and sets with keys of this type *)

Definition kmem (k : key) (l : list key) : bool := existsb (key_eqb k) l.
(** [s.add(k)] *)
Definition sadd (k : key) (l : list key) : list key := if kmem k l then l else l ++ [k].
(** [s.discard(k)], and [s.remove(k)] when [k] is present *)
Definition sdiscard (k : key) (l : list key) : list key :=
  filter (fun x => negb (key_eqb k x)) l.

Definition dict (A : Type) := list (key * A).
(** [d.get(k)] *)
Fixpoint dget {A} (k : key) (d : dict A) : option A :=
  match d with
  | [] => None
  | (k', a) :: d' => if key_eqb k k' then Some a else dget k d'
  end.
(** [d[k]=a] *)
Fixpoint dset {A} (k : key) (a : A) (d : dict A) : dict A :=
  match d with
  | [] => [(k, a)]
  | (k', a') :: d' => if key_eqb k k' then (k', a) :: d' else (k', a') :: dset k a d'
  end.
(** [del d[k]] when [k] is present *)
Definition ddel {A} (k : key) (d : dict A) : dict A :=
  filter (fun p => negb (key_eqb k (fst p))) d.
(** [k in d] *)
Definition dmem {A} (k : key) (d : dict A) : bool :=
  match dget k d with Some _ => true | None => false end.

(** ** InMemoryAssociationIndex: memds.py 233-318 *)

(** memds.py 247-248 *)
Record assocIndex := mkIndex { idx : dict (list key); rdx : dict (list key) }.

Definition emptyIndex : assocIndex := mkIndex [] [].

(** AddLink: memds.py 272-276 *)
Definition link_in (a b : key) (d : dict (list key)) : dict (list key) :=
  dset a (sadd b (match dget a d with Some l => l | None => [] end)) d.
Definition AddLink (ix : assocIndex) (fromKey toKey : key) : assocIndex :=
  mkIndex (link_in fromKey toKey (idx ix)) (link_in toKey fromKey (rdx ix)).

(** GetLinksFrom, GetLinksTo: memds.py 278-286 *)
Definition GetLinksFrom (ix : assocIndex) (fromKey : key) : list key :=
  match dget fromKey (idx ix) with Some l => l | None => [] end.
Definition GetLinksTo (ix : assocIndex) (toKey : key) : list key :=
  match dget toKey (rdx ix) with Some l => l | None => [] end.

(** RemoveLink: memds.py 288-292 *)
Definition link_out (a b : key) (d : dict (list key)) : dict (list key) :=
  match dget a d with Some l => dset a (sdiscard b l) d | None => d end.
Definition RemoveLink (ix : assocIndex) (fromKey toKey : key) : assocIndex :=
  mkIndex (link_out fromKey toKey (idx ix)) (link_out toKey fromKey (rdx ix)).

(** The loop of DeleteHook: memds.py 298-302.  The boolean is false if a KeyError ended
    the loop (303-305). *)
Fixpoint hook_loop (k : key) (ks : list key) (d : dict (list key))
    : dict (list key) * bool :=
  match ks with
  | [] => (d, true)
  | t :: ks' =>
      match dget t d with
      | None => (d, false)
      | Some l =>
          if kmem k l then
            hook_loop k ks'
              (match sdiscard k l with [] => ddel t d | l' => dset t l' d end)
          else (d, false)
      end
  end.

(** DeleteHook: memds.py 294-305 *)
Definition DeleteHook (ix : assocIndex) (fromKey : key) : assocIndex :=
  match dget fromKey (idx ix) with
  | None => ix
  | Some toKeys =>
      let '(r, done) := hook_loop fromKey toKeys (rdx ix) in
      mkIndex (if done then ddel fromKey (idx ix) else idx ix) r
  end.

(** ReverseDeleteHook: memds.py 307-318 *)
Definition ReverseDeleteHook (ix : assocIndex) (toKey : key) : assocIndex :=
  match dget toKey (rdx ix) with
  | None => ix
  | Some fromKeys =>
      let '(r, done) := hook_loop toKey fromKeys (idx ix) in
      mkIndex r (if done then ddel toKey (rdx ix) else rdx ix)
  end.

(** ** InMemoryEntityStore: memds.py 16-230 *)

(** A property value, [None] for NULL. *)
Definition value := option (list Z).

(** memds.py 35-40 *)
Record store := mkStore {
  data : dict (list value);
  streams : dict (list Z);
  deleting : list key;
  nextKey : option Z
}.

Definition emptyStore : store := mkStore [] [] [] None.
Definition set_data (d : dict (list value)) (s : store) :=
  mkStore d (streams s) (deleting s) (nextKey s).

(** AddEntity: memds.py 61-75.  [props] are the data properties of the entity in
    declaration order, each with its "selected" flag. *)
Definition AddEntity (s : store) (k : key) (props : list (bool * value)) : store :=
  set_data (dset k (map snd (filter fst props)) (data s)) s.

(** The loop of ReadEntity: memds.py 104-118.  [sel] says of each declared property
    whether its value is wanted; properties that are not wanted and properties with no
    stored value are NULL. *)
Fixpoint read_row (sel : list bool) (row : list value) : list value :=
  match sel, row with
  | [], _ => []
  | _ :: sel', [] => None :: read_row sel' []
  | b :: sel', v :: row' => (if b then v else None) :: read_row sel' row'
  end.

(** ReadEntity: memds.py 96-120 *)
Definition ReadEntity (s : store) (k : key) (sel : list bool) : option (list value) :=
  match dget k (data s) with None => None | Some row => Some (read_row sel row) end.

(** The loop of UpdateEntity: memds.py 146-154, [value[i]=...]. *)
Fixpoint update_row (props : list (bool * value)) (row : list value) : result (list value) :=
  match props with
  | [] => Ok row
  | (b, v) :: props' =>
      match row with
      | [] => if b then Err IndexError else update_row props' []
      | w :: row' => r <- update_row props' row' ;; Ok ((if b then v else w) :: r)
      end
  end.

(** UpdateEntity: memds.py 141-155 *)
Definition UpdateEntity (s : store) (k : key) (props : list (bool * value)) : result store :=
  match dget k (data s) with
  | None => Err KeyError
  | Some row => r <- update_row props row ;; Ok (set_data (dset k r (data s)) s)
  end.

(** ReadStream, UpdateEntityStream: memds.py 130-139, 157-159 *)
Definition ReadStream (s : store) (k : key) : result (list Z) :=
  if dmem k (data s) then Ok (match dget k (streams s) with Some x => x | None => [] end)
  else Err KeyError.
Definition UpdateEntityStream (s : store) (k : key) (x : list Z) : store :=
  mkStore (data s) (dset k x (streams s)) (deleting s) (nextKey s).

(** StartDeletingEntity (when it returns True) and StopDeletingEntity: memds.py 171-199 *)
Definition StartDeleting (s : store) (k : key) : store :=
  mkStore (data s) (streams s) (sadd k (deleting s)) (nextKey s).
Definition StopDeleting (s : store) (k : key) : store :=
  mkStore (data s) (streams s) (sdiscard k (deleting s)) (nextKey s).

(** NextKey: memds.py 211-230.  [numeric] says whether the entity type has a single key
    property of a numeric type; keys.sort() is modelled by the greatest integer key. *)
Definition int_keys (s : store) : list Z :=
  flat_map (fun p => match fst p with KOne (AInt n) => [n] | _ => [] end) (data s).
Definition max_key (l : list Z) : Z := fold_right Z.max (hd 0 l) l.

(** memds.py 228-229 *)
Fixpoint next_loop (fuel : nat) (n : Z) (d : dict (list value)) : result Z :=
  match fuel with
  | O => Err OutOfFuel
  | S f => if dmem (KOne (AInt n)) d then next_loop f (n + 1) d else Ok n
  end.

Definition NextKey (numeric : bool) (s : store) : result (Z * store) :=
  start <- match nextKey s with
           | Some n => Ok n
           | None =>
               if negb numeric then Err KeyError
               else match data s with [] => Ok 0 | _ => Ok (max_key (int_keys s)) end
           end ;;
  n <- next_loop (S (length (data s))) start (data s) ;;
  Ok (n, mkStore (data s) (streams s) (deleting s) (Some n)).

(** ** The container: memds.py 620-645 *)

(** csdl.py 3470-3475 *)
Inductive mult := ZeroToOne | One | Many.
Definition mult_eqb (a b : mult) : bool :=
  match a, b with
  | ZeroToOne, ZeroToOne | One, One | Many, Many => true
  | _, _ => false
  end.

(** An association set with an index: memds.py 630-645.  The index is made for the first
    navigation property found, so the "from" end always has one; [nav_to] says whether the
    other end is bound to a navigation property as well.  Association sets with no
    navigation property at all are outside the model. *)
Record assoc := mkAssoc {
  a_from : nat; a_to : nat;      (* the entity sets *)
  m_from : mult; m_to : mult;    (* the multiplicity of each end *)
  nav_to : bool
}.

(** Entity sets and association sets are numbered. *)
Record schema := mkSchema {
  nassocs : nat;
  assocs : nat -> assoc;
  numeric : nat -> bool
}.

Record state := mkState { stores : nat -> store; links : nat -> assocIndex }.
Definition emptyState : state := mkState (fun _ => emptyStore) (fun _ => emptyIndex).

Definition upd {A} (f : nat -> A) (i : nat) (a : A) : nat -> A :=
  fun j => if Nat.eqb i j then a else f j.
Definition set_store (st : state) (s : nat) (x : store) : state :=
  mkState (upd (stores st) s x) (links st).
Definition set_links (st : state) (i : nat) (x : assocIndex) : state :=
  mkState (stores st) (upd (links st) i x).

(** An AssociationSetEnd: the association set, and false for the "from" end. *)
Definition end_ := (nat * bool)%type.
Definition other (e : end_) : end_ := (fst e, negb (snd e)).

Section Container.

(** The order in which a Python set yields its elements. *)
Variable order : list key -> list key.
Variable sch : schema.

Definition end_store (e : end_) : nat :=
  if snd e then a_to (assocs sch (fst e)) else a_from (assocs sch (fst e)).
Definition end_mult (e : end_) : mult :=
  if snd e then m_to (assocs sch (fst e)) else m_from (assocs sch (fst e)).
(** Whether the end is bound to a navigation property of its entity set. *)
Definition end_nav (e : end_) : bool := negb (snd e) || nav_to (assocs sch (fst e)).

(** EntitySet.linkEnds: csdl.py 3776-3797 *)
Definition linkEnds (s : nat) : list end_ :=
  filter (fun e => Nat.eqb (end_store e) s)
    (flat_map (fun i => [(i, false); (i, true)]) (seq 0 (nassocs sch))).

(** *** Deletion *)

(** InMemoryEntityStore.DeleteEntity: memds.py 201-209 *)
Definition hooks (s : nat) (k : key) (st : state) : nat -> assocIndex :=
  fun i =>
    if Nat.ltb i (nassocs sch) then
      let ix := links st i in
      let ix := if Nat.eqb (a_from (assocs sch i)) s then DeleteHook ix k else ix in
      if Nat.eqb (a_to (assocs sch i)) s then ReverseDeleteHook ix k else ix
    else links st i.
Definition DeleteEntity (s : nat) (k : key) (st : state) : state * option exn :=
  let x := stores st s in
  let st' := mkState (stores st) (hooks s k st) in
  if dmem k (data x) then
    (set_store st' s (mkStore (ddel k (data x)) (ddel k (streams x)) (deleting x) (nextKey x)),
     None)
  else (st', Some KeyError).

(** The loops over the linked entities in EntityCollection.__delitem__: memds.py 469-478
    and 480-486.  [out] is true for the first. *)
Fixpoint cascade_links (del : nat -> key -> state -> state * option exn)
    (nav : bool) (i : nat) (out : bool) (o : nat) (k : key) (ks : list key) (st : state)
    : state * option exn :=
  match ks with
  | [] => (st, None)
  | t :: ks' =>
      if negb nav && negb (kmem t (deleting (stores st o))) then (st, Some NavigationError)
      else
        let st := set_links st i
                    (if out then RemoveLink (links st i) k t
                     else RemoveLink (links st i) t k) in
        match del o t st with
        | (st, Some x) => (st, Some x)
        | (st, None) => cascade_links del nav i out o k ks' st
        end
  end.

(** The loop over linkEnds: memds.py 455-486 *)
Fixpoint cascade_ends (del : nat -> key -> state -> state * option exn)
    (s : nat) (k : key) (es : list end_) (st : state) : state * option exn :=
  match es with
  | [] => (st, None)
  | e :: es' =>
      let i := fst e in
      let a := assocs sch i in
      match
        (if mult_eqb (end_mult e) One then
          if Nat.eqb (a_from a) s
          then cascade_links del (end_nav e) i true (a_to a) k
                 (order (GetLinksFrom (links st i) k)) st
          else cascade_links del (end_nav e) i false (a_from a) k
                 (order (GetLinksTo (links st i) k)) st
        else (st, None))
      with
      | (st, Some x) => (st, Some x)
      | (st, None) => cascade_ends del s k es' st
      end
  end.

(** EntityCollection.__delitem__: memds.py 446-488 *)
Fixpoint delitem (fuel : nat) (s : nat) (k : key) (st : state) : state * option exn :=
  match fuel with
  | O => (st, Some OutOfFuel)
  | S f =>
      if kmem k (deleting (stores st s)) then (st, None)
      else if negb (dmem k (data (stores st s))) then (st, Some KeyError)
      else
        let st := set_store st s (StartDeleting (stores st s) k) in
        let '(st, x) :=
          match cascade_ends (delitem f) s k (linkEnds s) st with
          | (st, Some x) => (st, Some x)
          | (st, None) => DeleteEntity s k st
          end in
        (set_store st s (StopDeleting (stores st s) k), x)
  end.

(** *** Navigation collections: memds.py 490-617 *)

(** A navigation collection is given by the end of its source entity and that entity's
    key.  lookupMethod and rLookupMethod: memds.py 496-501 *)
Definition lookup (st : state) (e : end_) (k : key) : list key :=
  if snd e then GetLinksTo (links st (fst e)) k else GetLinksFrom (links st (fst e)) k.
Definition rlookup (st : state) (e : end_) (k : key) : list key := lookup st (other e) k.
Definition fromMult (e : end_) : mult := end_mult e.
Definition toMult (e : end_) : mult := end_mult (other e).

(** memds.py 570-573, 606-609 and 584-587, 614-617 *)
Definition add_link (st : state) (e : end_) (k t : key) : state :=
  set_links st (fst e)
    (if snd e then AddLink (links st (fst e)) t k else AddLink (links st (fst e)) k t).
Definition remove_link (st : state) (e : end_) (k t : key) : state :=
  set_links st (fst e)
    (if snd e then RemoveLink (links st (fst e)) t k else RemoveLink (links st (fst e)) k t).

(** [key in collection] for a base collection: DictionaryLike.__contains__ csdl.py 194-203
    and memds.py 430-436.  [flt] is the filter of the collection. *)
Definition in_collection (flt : list value -> bool) (s : nat) (k : key) (st : state) : bool :=
  match dget k (data (stores st s)) with Some row => flt row | None => false end.
Definition no_filter : list value -> bool := fun _ => true.

(** NavigationCollection.__setitem__: memds.py 554-573, with csdl.py 2698-2704.  The value
    is an entity of entity set [vs] with key [vk]. *)
Definition nav_setitem (e : end_) (k : key) (t : key) (vs : nat) (vk : key) (st : state)
    : state * option exn :=
  if kmem t (lookup st e k) then (st, None)
  else if negb (Nat.eqb vs (end_store (other e))) then (st, Some TypeError)
  else if negb (key_eqb t vk) then (st, Some ValueError)
  else if negb (in_collection no_filter (end_store (other e)) t st) then (st, Some KeyError)
  else if negb (mult_eqb (toMult e) Many)
          && match lookup st e k with [] => false | _ => true end
  then (st, Some NavigationError)
  else if negb (mult_eqb (fromMult e) Many)
          && match rlookup st e t with [] => false | _ => true end
  then (st, Some NavigationError)
  else (add_link st e k t, None).

(** NavigationCollection.__delitem__: memds.py 575-587 *)
Definition nav_delitem (e : end_) (k : key) (t : key) (st : state) : state * option exn :=
  if mult_eqb (fromMult e) One || mult_eqb (toMult e) One then (st, Some NavigationError)
  else if negb (kmem t (lookup st e k)) then (st, Some KeyError)
  else (remove_link st e k t, None).

(** NavigationCollection.Replace: memds.py 589-617.  The entity is of the target set. *)
Definition remove_others (e : end_) (k t : key) (olds : list key) (st : state) : state :=
  fold_left (fun st old => if key_eqb old t then st else remove_link st e k old) olds st.
Definition nav_replace (e : end_) (k : key) (t : key) (st : state) : state * option exn :=
  let resultSet := order (lookup st e k) in
  if match resultSet with [x] => key_eqb x t | _ => false end then (st, None)
  else if mult_eqb (fromMult e) One then
    match resultSet with
    | [] => nav_setitem e k t (end_store (other e)) t st
    | _ => (st, Some NavigationError)
    end
  else
    let st1 := if kmem t resultSet then st else add_link st e k t in
    (remove_others e k t resultSet st1, None).

(** NavigationCollection.__getitem__: memds.py 543-552.  [flt] is the filter, if any. *)
Definition nav_getitem (flt : option (list value -> bool)) (e : end_) (k t : key) (st : state)
    : result (list value) :=
  if kmem t (lookup st e k) then
    match dget t (data (stores st (end_store (other e)))) with
    | None => Err KeyError
    | Some row => Ok row  (* CheckFilter is only called when there is no filter *)
    end
  else Err KeyError.

(** EntityCollection.__getitem__: memds.py 430-436 *)
Definition coll_getitem (flt : option (list value -> bool)) (s : nat) (k : key) (st : state)
    : result (list value) :=
  match dget k (data (stores st s)) with
  | Some row => if match flt with Some f => f row | None => true end then Ok row
                else Err KeyError
  | None => Err KeyError
  end.

(** EntityCollection.itervalues and __len__: memds.py 415-428, with FilterEntities and
    CheckFilter csdl.py 2519-2548.  The keys are kept to tell the entities apart; the order
    of the collection is left out. *)
Definition passes (flt : option (list value -> bool)) (row : list value) : bool :=
  match flt with Some f => f row | None => true end.
Definition coll_iter (flt : option (list value -> bool)) (s : nat) (st : state)
    : list (key * list value) :=
  filter (fun p => passes flt (snd p)) (data (stores st s)).
Definition coll_len (flt : option (list value -> bool)) (s : nat) (st : state) : nat :=
  match flt with
  | None => length (data (stores st s))
  | Some _ => length (coll_iter flt s st)
  end.

(** NavigationCollection.entityGenerator, itervalues and __len__: memds.py 521-541.  The
    lookup of a linked entity that does not exist raises KeyError. *)
Fixpoint generate (s : nat) (ks : list key) (st : state) : result (list (key * list value)) :=
  match ks with
  | [] => Ok []
  | t :: ks' =>
      match dget t (data (stores st s)) with
      | None => Err KeyError
      | Some row => r <- generate s ks' st ;; Ok ((t, row) :: r)
      end
  end.
Definition nav_iter (flt : option (list value -> bool)) (e : end_) (k : key) (st : state)
    : result (list (key * list value)) :=
  l <- generate (end_store (other e)) (order (lookup st e k)) st ;;
  Ok (filter (fun p => passes flt (snd p)) l).
Definition nav_len (flt : option (list value -> bool)) (e : end_) (k : key) (st : state)
    : result nat :=
  match flt with
  | None => Ok (length (lookup st e k))
  | Some _ => l <- nav_iter flt e k st ;; Ok (length l)
  end.

(** *** Insertion and update *)

(** A new entity: its key if it has one, its data properties, and the bindings of its
    navigation properties (csdl.py 1792-1814) in the order in which they are processed.
    A binding names the entity's own end of the association and a key, an existing entity
    or another new entity. *)
Inductive entity :=
| Ent (k : option key) (props : list (bool * value)) (bs : bindings)
with bindings :=
| BNil
| BKey (e : end_) (t : key) (rest : bindings)
| BEnt (e : end_) (t : key) (rest : bindings)
| BNew (e : end_) (n : entity) (rest : bindings).

Fixpoint bound_ends (bs : bindings) : list end_ :=
  match bs with
  | BNil => []
  | BKey e _ r | BEnt e _ r => e :: bound_ends r
  | BNew e _ r => e :: bound_ends r
  end.

Definition end_eqb (e f : end_) : bool := Nat.eqb (fst e) (fst f) && Bool.eqb (snd e) (snd f).

(** unboundPrincipal: csdl.py 3790-3794 *)
Definition unboundPrincipal (s : nat) : option end_ :=
  find (fun e => negb (end_nav e) && mult_eqb (end_mult (other e)) One) (linkEnds s).

(** Entity.CheckNavigationConstraints: csdl.py 2015-2037, for an entity that does not
    exist, with DeferredValue.CheckNavigationConstraint 1816-1825. *)
Definition check_constraints (s : nat) (ignoreEnd : option end_) (bs : bindings) : bool :=
  let ignored e := match ignoreEnd with Some f => end_eqb e f | None => false end in
  match unboundPrincipal s with
  | Some b => ignored b
  | None => true
  end
  && forallb (fun e =>
        negb (end_nav e) || ignored e || negb (mult_eqb (end_mult (other e)) One)
        || existsb (end_eqb e) (bound_ends bs))
      (linkEnds s).

(** The navigation property named by a binding belongs to the entity. *)
Definition end_valid (s : nat) (e : end_) : bool :=
  Nat.ltb (fst e) (nassocs sch) && Nat.eqb (end_store e) s && end_nav e.

(** An existing entity is bound: csdl.py 1846-1852 *)
Definition bind_existing (e : end_) (k t : key) (st : state) : state * option exn :=
  if mult_eqb (toMult e) Many then nav_setitem e k t (end_store (other e)) t st
  else nav_replace e k t st.

(** EntityCollection.InsertEntity: memds.py 389-413; EntityCollection.UpdateBindings and
    DeferredValue.UpdateBindings: csdl.py 2675-2684, 1827-1857;
    NavigationCollection.InsertEntity: memds.py 514-519.
    The result is the key of the new entity. *)
Fixpoint InsertEntity (flt : list value -> bool) (s : nat) (n : entity)
    (fromEnd : option end_) (st : state) {struct n} : state * result key :=
  match n with
  | Ent ok props bs =>
      match (match ok with
             | Some k => Ok (k, st)
             | None => '(z, x) <- NextKey (numeric sch s) (stores st s) ;;
                       Ok (KOne (AInt z), set_store st s x)
             end) with
      | Err x => (st, Err x)
      | Ok (k, st) =>
          if in_collection flt s k st then (st, Err ConstraintError)
          else if negb (check_constraints s fromEnd bs) then (st, Err NavigationError)
          else
            let st := set_store st s (AddEntity (stores st s) k props) in
            match UpdateBindings s k bs st with
            | (st, Some x) => (st, Err x)
            | (st, None) => (st, Ok k)
            end
      end
  end
with UpdateBindings (s : nat) (k : key) (bs : bindings) (st : state) {struct bs}
    : state * option exn :=
  match bs with
  | BNil => (st, None)
  | BKey e t rest =>
      if negb (end_valid s e) then (st, Some KeyError)
      else if negb (in_collection no_filter (end_store (other e)) t st)
      then (st, Some KeyError)
      else
        match bind_existing e k t st with
        | (st, Some x) => (st, Some x)
        | (st, None) => UpdateBindings s k rest st
        end
  | BEnt e t rest =>
      if negb (end_valid s e) then (st, Some KeyError)
      else
        match bind_existing e k t st with
        | (st, Some x) => (st, Some x)
        | (st, None) => UpdateBindings s k rest st
        end
  | BNew e n rest =>
      if negb (end_valid s e) then (st, Some KeyError)
      else
        match InsertEntity no_filter (end_store (other e)) n (Some (other e)) st with
        | (st, Err x) => (st, Some x)
        | (st, Ok t) =>
            match nav_setitem e k t (end_store (other e)) t st with
            | (st, Some x) => (st, Some x)
            | (st, None) => UpdateBindings s k rest st
            end
        end
  end.

(** NavigationCollection.InsertEntity: memds.py 514-519 *)
Definition nav_insert (e : end_) (k : key) (n : entity) (st : state) : state * option exn :=
  match InsertEntity no_filter (end_store (other e)) n (Some (other e)) st with
  | (st, Err x) => (st, Some x)
  | (st, Ok t) => nav_setitem e k t (end_store (other e)) t st
  end.

(** EntityCollection.UpdateEntity: memds.py 438-444 *)
Definition coll_update (s : nat) (k : key) (props : list (bool * value)) (bs : bindings)
    (st : state) : state * option exn :=
  match UpdateEntity (stores st s) k props with
  | Err x => (st, Some x)
  | Ok x => UpdateBindings s k bs (set_store st s x)
  end.

End Container.
