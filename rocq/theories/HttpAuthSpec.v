(** Specification for HTTP authentication. *)
From Verif Require Import Py Iso Dec XmlUtils Imscp HttpCore HttpParams HttpHeaders HttpConn HttpSpec HttpAuth.
Open Scope Z_scope.

(** *** Parameters of challenges *)
Definition name_of (p : aparam) : str := fst (fst p).
Definition value_of (p : aparam) : str := snd (fst p).
(** A token as name; a value that is empty must be marked as quoted *)
Definition good_aparam (p : aparam) : Prop :=
  let '(n, v, q) := p in is_token n /\ octets v /\ (v <> [] \/ q = true).
(** The parameter with the realm that is there when none is given *)
Definition default_realm : aparam := (lit "realm", lit "Default", true).
Definition names_realm (l : list aparam) : Prop := exists p, In p l /\ lower (name_of p) = lit "realm".
(** All parameters of a challenge made with l *)
Definition all_params (l l' : list aparam) : Prop :=
  (names_realm l /\ l' = l) \/ (~ names_realm l /\ l' = l ++ [default_realm]).
(** Read back: the same name and value, and the mark of all that is not a token *)
Definition read_as (p p' : aparam) : Prop :=
  let '(n, v, q) := p in let '(n', v', q') := p' in
  n' = n /\ v' = v /\ (q' = true <-> q = true \/ ~ is_token v).

(** The value of a name: of the last parameter with just this name, otherwise of the last
    with this name in lower case, otherwise of the first with the name in other case *)
Definition last_named (l : list aparam) (k v : str) : Prop :=
  exists a b q, l = a ++ (k, v, q) :: b /\ forall p, In p b -> name_of p <> k.
Definition is_named (l : list aparam) (k : str) : Prop := exists p, In p l /\ name_of p = k.
Definition first_like (l : list aparam) (k v : str) : Prop :=
  exists a b n q, l = a ++ (n, v, q) :: b /\ lower n = lower k /\ forall p, In p a -> lower (name_of p) <> lower k.
Definition value_for (l : list aparam) (k v : str) : Prop :=
  last_named l k v \/
  (~ is_named l k /\ last_named l (lower k) v) \/
  (~ is_named l k /\ ~ is_named l (lower k) /\ first_like l k v).

(** *** Paths *)
(** The path of a list of segments *)
Definition abs_path (l : list str) : str := concat (map (fun s => 47 :: s) l).
(** A segment: no slash in it, and not the name of this or the upper directory *)
Definition plain_segment (s : str) : Prop := ~ In 47 s /\ s <> lit "." /\ s <> lit "..".
(** a goes for p: p begins with the segments of a, and an empty segment of a stands for any *)
Inductive covers : list str -> list str -> Prop :=
| cov_nil p : covers [] p
| cov_same s a p : covers a p -> covers (s :: a) (s :: p)
| cov_any s a p : covers a p -> covers ([] :: a) (s :: p).
(** p is a, or below a; where a ends with a slash, in the directory a *)
Definition at_or_below (a p : list str) : Prop :=
  (exists r, p = a ++ r) \/ (exists d s r, a = d ++ [[]] /\ p = d ++ s :: r).
(** No empty segment but the last *)
Definition no_gap (a : list str) : Prop := Forall (fun s => s <> []) (removelast a).

(** *** Credentials *)
Definition accepted (c : credentials) (paths : list str) : credentials := fold_left AddSuccessPath paths c.
(** The text of the root of a URL: it has a colon *)
Definition root_text (s : str) : Prop := In 58 s.
