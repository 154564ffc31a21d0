(** What pages of a collection are: a vocabulary for C136-C141 that does not use the model. *)
From Coq Require Import List ZArith Permutation Sorted.
Import ListNotations.
Open Scope Z_scope.

(** The entities numbered from [s], at most [n] of them, or all *)
Definition slice {E} (s : nat) (n : option nat) (l : list E) : list E :=
  match n with Some n => firstn n (skipn s l) | None => skipn s l end.

(** The number of entities in a full page: the smaller of the client's and the provider's number
    (a provider's number of 0 is none) *)
Definition page_size (top topmax : option Z) : option Z :=
  match top, topmax with
  | None, None => None
  | Some t, None => Some t
  | None, Some m => if m =? 0 then None else Some m
  | Some t, Some m => if m =? 0 then Some t else Some (Z.min t m)
  end.

(** Page [k] when pages have at most [n] entities and the first starts at [s] *)
Definition nth_page {E} (s : nat) (n : option nat) (l : list E) (k : nat) : list E :=
  match n with
  | Some n => firstn n (skipn (s + k * n) l)
  | None => match k with O => skipn s l | _ => [] end
  end.

(** [a] comes before or with [b] by the rules in turn; [true] is descending.  The last comparison
    is by key. *)
Fixpoint before {E} (rules : list ((E -> E -> comparison) * bool)) (key : E -> E -> comparison) (a b : E) : Prop :=
  match rules with
  | [] => key a b <> Gt
  | (r, desc) :: rules' =>
      r a b = (if desc then Gt else Lt) \/ (r a b = Eq /\ before rules' key a b)
  end.

(** A table that other clients change between requests: [T n] is what it holds at request [n] *)
Definition history (E : Type) := nat -> list E.
Definition always {E} (T : history E) (e : E) : Prop := forall n, In e (T n).
