(** Versions, as they are written and compared *)
From Verif Require Import Py.
Open Scope Z_scope.
Open Scope list_scope.

(** The number that decimal digits denote: the last is for the units *)
Inductive denotes : str -> Z -> Prop :=
| DOne : forall c, 48 <= c <= 57 -> denotes [c] (c - 48)
| DMore : forall s n c, denotes s n -> 48 <= c <= 57 -> denotes (s ++ [c]) (10 * n + (c - 48)).
(** major.minor *)
Definition version_text (t : str) (v : Z * Z) : Prop :=
  exists a b, t = a ++ 46 :: b /\ denotes a (fst v) /\ denotes b (snd v).
(** One version is not later than another *)
Definition not_later (v w : Z * Z) : Prop := fst v < fst w \/ fst v = fst w /\ snd v <= snd w.
