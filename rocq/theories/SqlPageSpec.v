(** What the database does with a query: conditions with three truth values, and the order of
    the rows.  What a walk through the pages should give. *)
From Coq Require Import List ZArith Permutation Sorted.
From Verif Require Import HttpCore SqlPage.
Import ListNotations.

Section Spec.
Context {R V : Type}.
Variable vals : R -> list (option V).
Variable vcmp : V -> V -> comparison.
(** NULLs come before or after all other values *)
Variable nulls_first : bool.

(** ** Conditions *)
Inductive cond := CCmp (col : nat) (op : comparison) (v : option V) | COr (a b : cond) | CAnd (a b : cond).
(** The grammar: OR of ANDs of comparisons and conditions in parentheses *)
Fixpoint parse_or (fuel : nat) (ts : list (@token V)) : option (cond * list (@token V)) :=
  match fuel with
  | O => None
  | S f =>
      match parse_and f ts with
      | Some (a, TOr :: ts') => match parse_or f ts' with Some (b, r) => Some (COr a b, r) | None => None end
      | o => o
      end
  end
with parse_and (fuel : nat) (ts : list (@token V)) : option (cond * list (@token V)) :=
  match fuel with
  | O => None
  | S f =>
      match parse_one f ts with
      | Some (a, TAnd :: ts') => match parse_and f ts' with Some (b, r) => Some (CAnd a b, r) | None => None end
      | o => o
      end
  end
with parse_one (fuel : nat) (ts : list (@token V)) : option (cond * list (@token V)) :=
  match fuel with
  | O => None
  | S f =>
      match ts with
      | TCmp i op v :: ts' => Some (CCmp i op v, ts')
      | TOpen :: ts' => match parse_or f ts' with Some (a, TClose :: r) => Some (a, r) | _ => None end
      | _ => None
      end
  end.
Definition parse (ts : list (@token V)) : option cond :=
  match parse_or (S (8 * length ts)) ts with Some (c, []) => Some c | _ => None end.

Definition or3 (a b : option bool) : option bool :=
  match a, b with Some true, _ => Some true | _, Some true => Some true | Some false, Some false => Some false | _, _ => None end.
Definition and3 (a b : option bool) : option bool :=
  match a, b with Some false, _ => Some false | _, Some false => Some false | Some true, Some true => Some true | _, _ => None end.
Definition same_comparison (a b : comparison) : bool :=
  match a, b with Eq, Eq | Lt, Lt | Gt, Gt => true | _, _ => false end.
(** A comparison with NULL is unknown *)
Fixpoint holds (c : cond) (r : R) : option bool :=
  match c with
  | CCmp i op v =>
      match nth i (vals r) None, v with
      | Some x, Some y => Some (same_comparison (vcmp x y) op)
      | _, _ => None
      end
  | COr a b => or3 (holds a r) (holds b r)
  | CAnd a b => and3 (holds a r) (holds b r)
  end.

(** ** Order *)
Definition ncmp (a b : option V) : comparison :=
  match a, b with
  | Some x, Some y => vcmp x y
  | None, None => Eq
  | None, Some _ => if nulls_first then Lt else Gt
  | Some _, None => if nulls_first then Gt else Lt
  end.
Fixpoint lex (dirs : list bool) (a b : list (option V)) : comparison :=
  match dirs with
  | [] => Eq
  | d :: dirs' =>
      match (if d then ncmp (hd None b) (hd None a) else ncmp (hd None a) (hd None b)) with
      | Eq => lex dirs' (tl a) (tl b)
      | c => c
      end
  end.
(** SELECT ... WHERE ... ORDER BY *)
Definition database (dirs : list bool) (ts : option (list (@token V))) (table : list R) : list R :=
  sort (fun a b => lex dirs (vals a) (vals b))
    (filter (fun r => match ts with
                      | None => true
                      | Some ts => match parse ts with Some c => match holds c r with Some true => true | _ => false end | None => false end
                      end) table).

(** The row [a] comes strictly before [b]: at the first column where they differ it has the smaller
    value, or the greater one if the column is descending *)
Fixpoint precedes (dirs : list bool) (a b : list (option V)) : Prop :=
  match dirs, a, b with
  | d :: dirs', Some x :: a', Some y :: b' =>
      vcmp x y = (if d then Gt else Lt) \/ (x = y /\ precedes dirs' a' b')
  | _, _, _ => False
  end.

(** Rows that can be told apart by their columns, none of them NULL *)
Definition good_table (dirs : list bool) (t : list R) : Prop :=
  NoDup t /\ (forall r, In r t -> length (vals r) = length dirs /\ ~ In None (vals r)) /\
  forall r r', In r t -> In r' t -> vals r = vals r' -> r = r'.
End Spec.
(** the first rows, if there is a limit *)
Definition take_opt {A} (n : option Z) (l : list A) : list A := match n with Some n => firstn (Z.to_nat n) l | None => l end.
(** A skip token stands for the rows after the values [from], all but the first [off] of them: it
    has a value for each column, and one more with the number if there is one *)
Definition page_token {V} (dirs : list bool) (as_int : V -> option Z) (tok from : option (list (option V))) (off : Z) : Prop :=
  match from with
  | None => tok = None /\ off = 0%Z
  | Some t => length t = length dirs /\ ~ In None t /\
      ((tok = Some t /\ off = 0%Z) \/ exists v, tok = Some (t ++ [Some v]) /\ as_int v = Some off)
  end.
