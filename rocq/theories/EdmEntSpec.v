(** What is asked of $expand, $select and the copying of values, in terms of paths and names *)
From Verif Require Import Py EdmLit EdmEnt.
Open Scope Z_scope.
Open Scope list_scope.

(** A dictionary has the name, with that value *)
Inductive has : str -> tree -> items -> Prop :=
| HasHere : forall n t r, has n t (ICons n t r)
| HasThere : forall n t m u r, has n t r -> has n t (ICons m u r).
(** A path a/b/c of a query option leads to what is after it *)
Inductive at_path : items -> list str -> tree -> Prop :=
| AtEnd : forall n t d, has n t d -> at_path d [n] t
| AtStep : forall n d' d p t, has n (TDict d') d -> at_path d' p t -> at_path d (n :: p) t.
(** Python's dictionaries have each name once *)
Inductive is_dict : items -> Prop :=
| DictNil : is_dict INil
| DictCons : forall n t r, (forall u, ~ has n u r) -> is_dict (dict t) -> is_dict r -> is_dict (ICons n t r).

Section Types.
Variable schema : nat -> str -> option member.
(** Navigation properties lead from one type to another *)
Inductive leads : nat -> list str -> nat -> Prop :=
| LeadsNil : forall T, leads T [] T
| LeadsCons : forall T n U p V, schema T n = Some (Nav U) -> leads U p V -> leads T (n :: p) V.
(** Each name of an $expand path is a navigation property of the type the path has led to *)
Definition good_expand (T : nat) (e : items) : Prop :=
  forall p n t, at_path e (p ++ [n]) t -> exists T' U, leads T p T' /\ schema T' n = Some (Nav U).
(** Each name of a $select path is one as well, or it is the last of the path and a data property
    or the star *)
Definition good_select (T : nat) (s : items) : Prop :=
  forall p n t, at_path s (p ++ [n]) t ->
  exists T', leads T p T' /\
    ((exists U, schema T' n = Some (Nav U)) \/ t = TNone /\ (n = star \/ schema T' n = Some Data)).
End Types.

(** Nothing but NULL, with the names it had *)
Inductive nulled : value -> value -> Prop :=
| NullSimple : forall v, nulled (Simple v) (Simple None)
| NullComplex : forall fs gs, nulled_fields fs gs -> nulled (Complex fs) (Complex gs)
with nulled_fields : fields -> fields -> Prop :=
| NullNil : nulled_fields FNil FNil
| NullCons : forall n v w r s, nulled v w -> nulled_fields r s -> nulled_fields (FCons n v r) (FCons n w s).
Definition listed (n : str) (d : items) : Prop := exists t, has n t d.
Definition data_name (n : str) (x : entity) : Prop := exists p, In p (e_props x) /\ p_name p = n.
(** A property after Expand with a $select *)
Definition shown (d : items) (p q : prop) : Prop :=
  p_name q = p_name p /\ p_key q = p_key p /\ p_fixed q = p_fixed p /\
  ((p_key p = true \/ listed star d \/ listed (p_name p) d) /\ p_value q = p_value p \/
   p_key p = false /\ ~ listed star d /\ ~ listed (p_name p) d /\ nulled (p_value p) (p_value q)).

(** Two lists of properties of one type that differ in the value of one *)
Inductive one_changed : list prop -> list prop -> prop -> prop -> Prop :=
| Changed : forall a b p q, p_name q = p_name p -> p_key q = p_key p -> p_fixed q = p_fixed p ->
    one_changed (a ++ p :: b) (a ++ q :: b) p q.
(** A property is copied from new if it has one of that name *)
Definition copied (fs new gs : fields) : Prop :=
  forall n v w, field n fs = Some (Simple v) -> field n new = Some (Simple w) -> field n gs = Some (Simple w).
