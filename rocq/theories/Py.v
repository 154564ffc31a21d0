(** Common base of the model: Python values and control flow as Gallina data.

    - An exception is a value of type [exn]; a function that may raise returns
      [result A].
    - A character is its code point (a [Z]), a string is a [list Z].
    - [lit] turns a Coq string literal into such a string, so that model
      definitions can be compared with the Python source by eye. *)
From Coq Require Export Ascii String.
From Coq Require Export List ZArith Bool Lia.
From Coq Require Export ZifyBool ZifyNat ZifyN.
Export ListNotations.
Open Scope Z_scope.
Open Scope list_scope.

(** Python exceptions raised by the modelled code.  [OutOfFuel] is not a Python
    exception: it marks a loop of the model that used up its fuel. *)
Inductive exn : Set :=
| ValueError
| IndexError
| KeyError
| TypeError
| AttributeError
| NameError
| AssertionError
| DateTimeError
| URIException
| ProcessingError
| OverflowError
| XMLException     (* QTIMigration/lib/xmlutils.py 39 *)
| RTFException     (* QTIMigration/lib/rtfutils.py 32 *)
| SyntaxError      (* RFCSyntaxError, rfc2234.py 60-66, or another parser error *)
| ZeroDivisionError
| NotImplementedError
| DeclarationError      (* qtiv2/core.py 24-31 *)
| SelectionError        (* qtiv2/core.py 33-35 *)
| SessionKeyMismatch    (* qtiv2/variables.py 17-19 *)
| SessionKeyExpired     (* qtiv2/variables.py 21-23 *)
| SessionActionMissing  (* qtiv2/variables.py 25-26 *)
| ConstraintError       (* odata2 *)
| NavigationError       (* odata2/csdl.py *)
| XHTMLValidityError    (* html40_19991224.py 97 *)
| HTTPParameterError    (* rfc2616_params.py *)
| BadSyntax             (* rfc2616_core.py *)
| XMLFatalError         (* xml20081126/structures.py: errors of class XMLError *)
| StopIteration
| Unmodelled       (* not a Python exception: the branch is outside the model *)
| OutOfFuel.

Inductive result (A : Type) : Type :=
| Ok (a : A)
| Err (e : exn).
Arguments Ok {A} a.
Arguments Err {A} e.

Definition bind {A B} (r : result A) (k : A -> result B) : result B :=
  match r with Ok a => k a | Err e => Err e end.

Notation "x <- e ;; k" := (bind e (fun x => k))
  (at level 61, e at next level, right associativity).
Notation "' p <- e ;; k" := (bind e (fun p => k))
  (at level 61, p pattern, e at next level, right associativity).

Definition is_ok {A} (r : result A) : bool :=
  match r with Ok _ => true | Err _ => false end.

(** Strings. *)
Notation str := (list Z) (only parsing).

Fixpoint lit (s : string) : str :=
  match s with
  | EmptyString => []
  | String a t => Z.of_nat (nat_of_ascii a) :: lit t
  end.

Definition chr (a : ascii) : Z := Z.of_nat (nat_of_ascii a).

Fixpoint str_eqb (s t : str) : bool :=
  match s, t with
  | [], [] => true
  | a :: s', b :: t' => (a =? b) && str_eqb s' t'
  | _, _ => false
  end.

Lemma str_eqb_eq s t : str_eqb s t = true <-> s = t.
Proof.
  revert t; induction s as [|a s IH]; intros [|b t]; cbn [str_eqb]; split; intros H;
    try reflexivity; try discriminate.
  - apply andb_true_iff in H as [H1 H2]. apply Z.eqb_eq in H1. apply IH in H2.
    subst; reflexivity.
  - injection H as -> ->. apply andb_true_iff; split; [apply Z.eqb_refl|apply IH; reflexivity].
Qed.

Lemma str_eqb_refl s : str_eqb s s = true.
Proof. apply str_eqb_eq; reflexivity. Qed.

Lemma str_eqb_neq s t : str_eqb s t = false <-> s <> t.
Proof.
  rewrite <- (str_eqb_eq s t). destruct (str_eqb s t); split; intros H; try reflexivity;
    try discriminate; try congruence.
Qed.

Definition str_eq_dec (s t : str) : {s = t} + {s <> t} := list_eq_dec Z.eq_dec s t.

(** [c in s] for a character and a string. *)
Definition mem (c : Z) (s : str) : bool := existsb (Z.eqb c) s.

Lemma mem_In c s : mem c s = true <-> In c s.
Proof.
  unfold mem. rewrite existsb_exists. split.
  - intros (x & Hx & He). apply Z.eqb_eq in He. subst; exact Hx.
  - intros H. exists c. split; [exact H|apply Z.eqb_refl].
Qed.

(** Python list indexing with a non-negative index. *)
Definition index {A} (l : list A) (i : nat) : result A :=
  match nth_error l i with Some a => Ok a | None => Err IndexError end.

(** Python [l[i:j] = m] and [del l[i:j]] for 0 <= i, 0 <= j (with Python's rule that
    a slice whose end precedes its start is the empty slice at its start). *)
Definition splice {A} (l : list A) (i j : nat) (m : list A) : list A :=
  firstn i l ++ m ++ skipn (Nat.max i j) l.

(** Python [l[i] = x]. *)
Definition set_nth {A} (l : list A) (i : nat) (x : A) : result (list A) :=
  if Nat.ltb i (length l) then Ok (firstn i l ++ x :: skipn (S i) l) else Err IndexError.

(** Python [l.insert(i,x)] for i >= 0. *)
Definition insert_at {A} (l : list A) (i : nat) (x : A) : list A :=
  firstn i l ++ x :: skipn i l.
