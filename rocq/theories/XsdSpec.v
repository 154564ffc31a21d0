(** Specifications for xsdatatypes20041028.py: XML Schema lexical forms. *)
From Verif Require Import Py Dec Xsd.

(** The sign of a number *)
Inductive lex_sign : str -> Z -> Prop :=
| ls_none : lex_sign [] 1
| ls_plus : lex_sign [43] 1
| ls_minus : lex_sign [45] (-1).
(** XML Schema 3.3.13 integer: the string s denotes n *)
Definition lex_integer (s : str) (n : Z) : Prop :=
  exists sg g ds, s = sg ++ ds /\ lex_sign sg g /\ ds <> [] /\ Forall is_dec ds /\ n = g * dval ds.
(** XML Schema 3.2.3 decimal: s denotes m / 10^k *)
Definition lex_decimal (s : str) (m k : Z) : Prop :=
  exists sg g a b, lex_sign sg g /\ Forall is_dec a /\ Forall is_dec b /\ a ++ b <> [] /\
    (s = sg ++ a ++ 46 :: b \/ (b = [] /\ s = sg ++ a)) /\
    m = g * dval (a ++ b) /\ k = Z.of_nat (length b).
(** 3.2.3.2 canonical representation: a point with digits on both sides, no superfluous
    zeros, no '+', no negative zero *)
Definition canonical_decimal (s : str) : Prop :=
  exists sg a b, (sg = [] \/ sg = [45]) /\ s = sg ++ a ++ 46 :: b /\
    Forall is_dec a /\ Forall is_dec b /\
    (a = [48] \/ exists d t, a = d :: t /\ d <> 48) /\
    (b = [48] \/ exists d t, b = t ++ [d] /\ d <> 48) /\
    (sg = [45] -> ~ (a = [48] /\ b = [48])).

(** [q] is [x] rounded half up to a multiple of [u] *)
Definition rounded (x u q : Z) : Prop := exists j, q = j * u /\ 2 * q - u <= 2 * x < 2 * q + u.
(** [q] is the positive number [x] rounded half up to 15 significant digits *)
Definition round15 (x q : Z) : Prop :=
  (x < 10 ^ 15 /\ q = x) \/
  (exists k, 1 <= k /\ 10 ^ (14 + k) <= x < 10 ^ (15 + k) /\ rounded x (10 ^ k) q).

(** White space of XML Schema *)
Definition xspace (c : Z) : Prop := c = 9 \/ c = 10 \/ c = 13 \/ c = 32.
(** [has_words s ws]: the words of s (maximal runs of other characters) are ws *)
Inductive has_words : str -> list str -> Prop :=
| hw_nil : has_words [] []
| hw_space c s ws : xspace c -> has_words s ws -> has_words (c :: s) ws
| hw_word w s ws : w <> [] -> Forall (fun c => ~ xspace c) w ->
    (s = [] \/ exists c t, s = c :: t /\ xspace c) -> has_words s ws -> has_words (w ++ s) (w :: ws).
(** Words separated by single spaces *)
Fixpoint spaced (ws : list str) : str :=
  match ws with [] => [] | [w] => w | w :: ws' => w ++ 32 :: spaced ws' end.
Definition is_words (ws : list str) : Prop := Forall (fun w => w <> [] /\ Forall (fun c => ~ xspace c) w) ws.

Definition starts_with_space (s : str) : Prop := exists c t, s = c :: t /\ xspace c.

(** A dict: distinct keys *)
Definition dict {A} (d : list (str * A)) : Prop := NoDup (map fst d).
(** No surrounding white space *)
Definition trimmed (s : str) : Prop :=
  match s with [] => True | c :: _ => is_ws c = false end /\
  match rev s with [] => True | c :: _ => is_ws c = false end.
(** The words of s, for the white space of str.split *)
Inductive ws_words : str -> list str -> Prop :=
| ww_nil : ws_words [] []
| ww_space c s ws : is_ws c = true -> ws_words s ws -> ws_words (c :: s) ws
| ww_word w s ws : w <> [] -> Forall (fun c => is_ws c = false) w ->
    (s = [] \/ exists c t, s = c :: t /\ is_ws c = true) -> ws_words s ws -> ws_words (w ++ s) (w :: ws).
(** Surrounding white space *)
Definition padded (s k : str) : Prop := exists p q, s = p ++ k ++ q /\
  Forall (fun c => is_ws c = true) p /\ Forall (fun c => is_ws c = true) q.
