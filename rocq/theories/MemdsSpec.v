(** Specifications for the in-memory OData container. *)
From Verif Require Import Py Memds.

(** ** Histories of an association index *)

Inductive lop :=
| LAdd (a b : key)      (* AddLink *)
| LRemove (a b : key)   (* RemoveLink *)
| LDelFrom (a : key)    (* the source entity is deleted *)
| LDelTo (b : key).     (* the target entity is deleted *)

(** Whether [a] is linked to [b] after the operations of a history, last operation first. *)
Fixpoint linked_after (h : list lop) (a b : key) : Prop :=
  match h with
  | [] => False
  | LAdd a' b' :: h' => (a = a' /\ b = b') \/ linked_after h' a b
  | LRemove a' b' :: h' => ~ (a = a' /\ b = b') /\ linked_after h' a b
  | LDelFrom a' :: h' => a <> a' /\ linked_after h' a b
  | LDelTo b' :: h' => b <> b' /\ linked_after h' a b
  end.

Definition do_lop (ix : assocIndex) (o : lop) : assocIndex :=
  match o with
  | LAdd a b => AddLink ix a b
  | LRemove a b => RemoveLink ix a b
  | LDelFrom a => DeleteHook ix a
  | LDelTo b => ReverseDeleteHook ix b
  end.

(** ** What can be seen of a container *)

(** The entity with key [k] exists in entity set [s]. *)
Definition present (st : state) (x : nat * key) : Prop :=
  exists row, dget (snd x) (data (stores st (fst x))) = Some row.
Definition row_of (st : state) (x : nat * key) : option (list value) :=
  dget (snd x) (data (stores st (fst x))).

(** The entity [a] of the "from" set of association [i] is linked to [b] of its "to" set. *)
Definition linked (st : state) (i : nat) (a b : key) : Prop :=
  In b (GetLinksFrom (links st i) a).
Definition src (sch : schema) (i : nat) (a : key) : nat * key := (a_from (assocs sch i), a).
Definition dst (sch : schema) (i : nat) (b : key) : nat * key := (a_to (assocs sch i), b).

(** [y] must be linked to [x]: they are linked through an association in which each
    entity at the end of [y] needs exactly one entity at the end of [x]. *)
Definition requires (sch : schema) (st : state) (x y : nat * key) : Prop :=
  exists i a b, (i < nassocs sch)%nat /\ linked st i a b /\
    ((x = src sch i a /\ y = dst sch i b /\ m_from (assocs sch i) = One) \/
     (x = dst sch i b /\ y = src sch i a /\ m_to (assocs sch i) = One)).

(** The entities that go with [x]. *)
Inductive dependent (sch : schema) (st : state) (x : nat * key) : nat * key -> Prop :=
| dep_self : dependent sch st x x
| dep_step y z : dependent sch st x y -> requires sch st y z -> dependent sch st x z.

(** No association joins an entity set to itself. *)
Definition no_self (sch : schema) : Prop :=
  forall i, (i < nassocs sch)%nat -> a_from (assocs sch i) <> a_to (assocs sch i).

(** The multiplicities as upper bounds: an end of multiplicity 0..1 or 1 has at most one
    entity linked to each entity at the other end. *)
Definition at_most_one (sch : schema) (st : state) : Prop :=
  forall i, (i < nassocs sch)%nat ->
    (m_from (assocs sch i) <> Many ->
       forall a a' b, linked st i a b -> linked st i a' b -> a = a') /\
    (m_to (assocs sch i) <> Many ->
       forall a b b', linked st i a b -> linked st i a b' -> b = b').

(** Links only join entities that exist. *)
Definition no_dangling (sch : schema) (st : state) : Prop :=
  forall i a b, (i < nassocs sch)%nat -> linked st i a b ->
    present st (src sch i a) /\ present st (dst sch i b).

(** The multiplicities as lower bounds: an entity opposite an end of multiplicity 1 has a
    link. *)
Definition at_least_one (sch : schema) (st : state) : Prop :=
  forall i, (i < nassocs sch)%nat ->
    (m_from (assocs sch i) = One ->
       forall b, present st (dst sch i b) -> exists a, linked st i a b) /\
    (m_to (assocs sch i) = One ->
       forall a, present st (src sch i a) -> exists b, linked st i a b).

(** ** Histories of a container *)

Inductive op :=
| OInsert (s : nat) (flt : list value -> bool) (n : entity)   (* InsertEntity *)
| OUpdate (s : nat) (k : key) (props : list (bool * value)) (bs : bindings)
| ODelete (s : nat) (k : key)                                 (* del collection[k] *)
| OSet (e : end_) (k t : key) (vs : nat) (vk : key)           (* navigation[t]=value *)
| OUnset (e : end_) (k t : key)                               (* del navigation[t] *)
| OReplace (e : end_) (k t : key)                             (* navigation.Replace *)
| ONavInsert (e : end_) (k : key) (n : entity).               (* navigation.InsertEntity *)

Definition of_insert (r : state * result key) : state * option exn :=
  match r with (st, Ok _) => (st, None) | (st, Err x) => (st, Some x) end.

Definition step (order : list key -> list key) (sch : schema) (fuel : nat) (st : state) (o : op)
    : state * option exn :=
  match o with
  | OInsert s flt n => of_insert (InsertEntity order sch flt s n None st)
  | OUpdate s k props bs => coll_update order sch s k props bs st
  | ODelete s k => delitem order sch fuel s k st
  | OSet e k t vs vk => nav_setitem sch e k t vs vk st
  | OUnset e k t => nav_delitem sch e k t st
  | OReplace e k t => nav_replace order sch e k t st
  | ONavInsert e k n => nav_insert order sch e k n st
  end.

(** The states reached from the empty container by operations that meet [P] and whose
    outcomes meet [Q]. *)
Inductive reach (order : list key -> list key) (sch : schema)
    (P : state -> op -> Prop) (Q : option exn -> Prop) : state -> Prop :=
| reach_nil : reach order sch P Q emptyState
| reach_step st o fuel : reach order sch P Q st -> P st o ->
    Q (snd (step order sch fuel st o)) ->
    reach order sch P Q (fst (step order sch fuel st o)).

Definition any_outcome : option exn -> Prop := fun _ => True.
Definition success : option exn -> Prop := fun x => x = None.

(** Navigation collections are opened on navigation properties of the model. *)
Definition nav_end (sch : schema) (e : end_) : Prop :=
  (fst e < nassocs sch)%nat /\ (snd e = true -> nav_to (assocs sch (fst e)) = true).
Definition known_ends (sch : schema) (o : op) : Prop :=
  match o with
  | OSet e _ _ _ _ | OUnset e _ _ | OReplace e _ _ | ONavInsert e _ _ => nav_end sch e
  | _ => True
  end.

(** An end of multiplicity 0..1 is opposite an end of multiplicity *. *)
Definition optional_many (sch : schema) : Prop :=
  forall i, (i < nassocs sch)%nat ->
    (m_from (assocs sch i) = ZeroToOne -> m_to (assocs sch i) = Many) /\
    (m_to (assocs sch i) = ZeroToOne -> m_from (assocs sch i) = Many).

(** Replace is not used to take an entity over from another one. *)
Definition linked_at (st : state) (e : end_) (k t : key) : Prop :=
  if snd e then linked st (fst e) t k else linked st (fst e) k t.
Definition no_takeover (sch : schema) (st : state) (o : op) : Prop :=
  match o with
  | OReplace e k t => end_mult sch e = ZeroToOne -> forall k', linked_at st e k' t -> k' = k
  | _ => True
  end.

(** The entities named by a new entity as existing ones. *)
Fixpoint named (sch : schema) (n : entity) : list (nat * key) :=
  match n with Ent _ _ bs => named_in sch bs end
with named_in (sch : schema) (bs : bindings) : list (nat * key) :=
  match bs with
  | BNil => []
  | BKey _ _ r => named_in sch r
  | BEnt e t r => (end_store sch (other e), t) :: named_in sch r
  | BNew _ n r => named sch n ++ named_in sch r
  end.

(** The entity objects used are those of entities that still exist. *)
Definition no_stale (sch : schema) (st : state) (o : op) : Prop :=
  match o with
  | OInsert _ _ n => forall x, In x (named sch n) -> present st x
  | OUpdate _ _ _ bs => forall x, In x (named_in sch bs) -> present st x
  | ODelete _ _ => True
  | OSet e k _ _ _ => present st (end_store sch e, k)
  | OUnset _ _ _ => True
  | OReplace e k t => present st (end_store sch e, k) /\ present st (end_store sch (other e), t)
  | ONavInsert e k n =>
      present st (end_store sch e, k) /\ forall x, In x (named sch n) -> present st x
  end.

(** At most one end of each entity set is required and has no navigation property: a model
    with two is rejected (csdl.py 3793-3796). *)
Definition one_unbound (sch : schema) : Prop :=
  forall i j, (i < nassocs sch)%nat -> (j < nassocs sch)%nat ->
    nav_to (assocs sch i) = false -> m_from (assocs sch i) = One ->
    nav_to (assocs sch j) = false -> m_from (assocs sch j) = One ->
    a_to (assocs sch i) = a_to (assocs sch j) -> i = j.

(** ** Entity sets as maps *)

Inductive sop :=
| SAdd (k : key) (vs : list value)                   (* all properties are given *)
| SUpdate (k : key) (props : list (bool * value))    (* the selected ones are written *)
| SDelete (k : key).

(** Overwrite the selected values. *)
Fixpoint overwrite (props : list (bool * value)) (row : list value) : list value :=
  match props, row with
  | (b, v) :: props', w :: row' => (if b then v else w) :: overwrite props' row'
  | _, _ => row
  end.

(** The last written values of the entity with key [k], last operation first. *)
Fixpoint written (h : list sop) (k : key) : option (list value) :=
  match h with
  | [] => None
  | SAdd k' vs :: h' => if key_eqb k k' then Some vs else written h' k
  | SUpdate k' props :: h' =>
      if key_eqb k k' then option_map (overwrite props) (written h' k) else written h' k
  | SDelete k' :: h' => if key_eqb k k' then None else written h' k
  end.

Definition do_sop (s : store) (o : sop) : store :=
  match o with
  | SAdd k vs => AddEntity s k (map (pair true) vs)
  | SUpdate k props => match UpdateEntity s k props with Ok s' => s' | Err _ => s end
  | SDelete k => set_data (ddel k (data s)) s
  end.

(** All the rows have the declared number of properties. *)
Definition width_ok (w : nat) (o : sop) : Prop :=
  match o with
  | SAdd _ vs => length vs = w
  | SUpdate _ props => length props = w
  | SDelete _ => True
  end.
