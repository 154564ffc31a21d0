(** What nonces, keys and the file of consumers should be *)
From Verif Require Import Py.
Open Scope Z_scope.
Open Scope list_scope.

(** The clock does not go back *)
Fixpoint steady (from : Z) (cs : list (str * Z)) : Prop :=
  match cs with [] => True | (_, t) :: r => from <= t /\ steady t r end.
(** The i-th of the calls had this nonce at this time *)
Definition call (cs : list (str * Z)) (i : nat) (n : str) (t : Z) : Prop := nth_error cs i = Some (n, t).
(** Upper case hexadecimal digits, and groups of four with dots between them *)
Definition is_hex (c : Z) : Prop := 48 <= c <= 57 \/ 65 <= c <= 70.
Inductive grouped : nat -> str -> Prop :=
| GOne : forall a b c d, is_hex a -> is_hex b -> is_hex c -> is_hex d -> grouped 1 [a; b; c; d]
| GMore : forall n a b c d s, is_hex a -> is_hex b -> is_hex c -> is_hex d -> grouped n s ->
    grouped (S n) (a :: b :: c :: d :: 46 :: s).
(** A word that can be written in the file: something without white space *)
Definition white (c : Z) : Prop := 9 <= c <= 13 \/ c = 32.
Definition word (s : str) : Prop := s <> [] /\ Forall (fun c => ~ white c) s.
