(** Specification vocabulary for QTI values and expressions: what the properties C40-C48 mean,
    stated without the evaluator. *)
From Coq Require Import QArith Qcanon.
From Verif Require Import Py Dec XmlUtils Xsd XsdSpec QtiValue QtiExpr.
Open Scope Z_scope.
Open Scope list_scope.

Definition atom_eq_dec (a b : atom) : {a = b} + {a <> b}.
Proof.
  decide equality; try apply str_eq_dec; try apply Z.eq_dec; try apply Bool.bool_dec;
    apply Qc_eq_dec.
Defined.

(** ** Three-valued logic *)

(** A list of truth values completes a list with unknowns when it agrees with every known one *)
Definition completes (obs : list (option bool)) (bs : list bool) : Prop :=
  Forall2 (fun ob b => ob = None \/ ob = Some b) obs bs.
(** [r] is the best answer for the boolean function [f] given the known operands *)
Definition best_answer (f : list bool -> bool) (obs : list (option bool)) (r : option bool) : Prop :=
  match r with
  | Some b => forall bs, completes obs bs -> f bs = b
  | None => (exists bs, completes obs bs /\ f bs = true) /\ (exists bs, completes obs bs /\ f bs = false)
  end.
Definition conj (bs : list bool) : bool := forallb (fun b => b) bs.
Definition disj (bs : list bool) : bool := existsb (fun b => b) bs.
Definition trues (bs : list bool) : Z := Z.of_nat (length (filter (fun b => b) bs)).
Definition between (mn mx : Z) (bs : list bool) : bool := (mn <=? trues bs) && (trues bs <=? mx).
Definition negation (bs : list bool) : bool := match bs with [b] => negb b | _ => false end.

(** The boolean operand read off a value: a boolean, or any NULL that could be a boolean *)
Definition bool_operand (v : value) (ob : option bool) : Prop :=
  v = VSingle (Some BBoolean) (option_map ABool ob) \/
  (ob = None /\ (v = VNull \/ v = VSingle None None \/ v = VUnknown None \/ v = VUnknown (Some BBoolean))).
Definition boolean (ob : option bool) : value := VSingle (Some BBoolean) (option_map ABool ob).

(** ** Members of a value *)
Fixpoint somes {A} (l : list (option A)) : list A :=
  match l with [] => [] | Some a :: l' => a :: somes l' | None :: l' => somes l' end.
Definition members (v : value) : list atom :=
  match v with
  | VSingle _ (Some a) => [a]
  | VOrdered _ (Some l) => somes l
  | VMultiple _ (Some m) =>
      somes (flat_map (fun p : option atom * Z => repeat (fst p) (Z.to_nat (snd p))) m)
  | _ => []
  end.
(** how often an atom occurs in a value *)
Definition occurs (a : atom) (v : value) : nat := count_occ atom_eq_dec (members v) a.

(** ** Well-formed values *)
Section Wf.
Context {X : Ext}.
Definition int32 (n : Z) : Prop := -2147483648 <= n <= 2147483647.
Definition wf_atom (b : baseType) (a : atom) : Prop :=
  match b, a with
  | BBoolean, ABool _ => True
  | BDirectedPair, ADPair p q => x_ncname p = true /\ x_ncname q = true
  | BPair, APair p q => x_ncname p = true /\ x_ncname q = true /\ str_ltb q p = false
  | BDuration, AFloat _ | BFloat, AFloat _ => True
  | BIdentifier, AIdent s => x_ncname s = true
  | BInteger, AInt n => int32 n
  | BPoint, APoint x y => int32 x /\ int32 y
  | BString, AStr s => s <> []
  | _, _ => False
  end.
(** The value matches its cardinality and base type, containers are non-empty and hold no NULL,
    counts are positive and keys distinct *)
Definition wf_value (v : value) : Prop :=
  match v with
  | VNull | VUnknown _ => True
  | VSingle _ None | VOrdered _ None | VMultiple _ None | VRecord None => True
  | VSingle (Some b) (Some a) => wf_atom b a
  | VOrdered (Some b) (Some l) => l <> [] /\ Forall (fun x => exists a, x = Some a /\ wf_atom b a) l
  | VMultiple (Some b) (Some m) =>
      m <> [] /\ NoDup (map fst m) /\
      Forall (fun p => 0 < snd p /\ exists a, fst p = Some a /\ wf_atom b a) m
  | VRecord (Some l) =>
      l <> [] /\ NoDup (map fst l) /\ Forall (fun p => wf_atom (fst (snd p)) (snd (snd p))) l
  | _ => False
  end.
Definition wf_state (st : state) : Prop :=
  forall n v, assoc n (s_map st) = Some v -> wf_value v.

(** Every literal integer of the expression that denotes an integer denotes a 32-bit one *)
Fixpoint literals_ok (e : expr) : Prop :=
  let all := fix all es := match es with [] => True | e :: es' => literals_ok e /\ all es' end in
  match e with
  | EBaseValue (Some BInteger) t => forall n, DecodeInteger t = Ok n -> int32 n
  | EMultiple es | EOrdered es | EMember es | EDelete es | EContains es | ESubString _ es
  | EAnd es | EOr es | EAnyN _ _ es | EMatch es | EStringMatch _ _ es | EEqual _ _ _ _ es
  | EEqualRounded _ _ es | ECompare _ es | EDurationLT es | EDurationGTE es | ESum es
  | EProduct es | ESubtract es | EDivide es | EPower es | EIntegerDivide es
  | EIntegerModulus es | ECustomOperator es => all es
  | EContainerSize e | EIsNull e | EIndex _ e | EFieldValue _ e | ERandom _ e | ENot e
  | EPatternMatch _ e | EInside _ e | ETruncate e | ERound e | EIntegerToFloat e => literals_ok e
  | _ => True
  end.

(** The session variables an expression mentions *)
Fixpoint mentions (e : expr) : list str :=
  let all := fix all es := match es with [] => [] | e :: es' => mentions e ++ all es' end in
  match e with
  | EVariable id | EMapResponse id | EMapResponsePoint id => [id]
  | EDefault id => [id; id ++ lit ".DEFAULT"]
  | ECorrect id => [id; id ++ lit ".CORRECT"]
  | EMultiple es | EOrdered es | EMember es | EDelete es | EContains es | ESubString _ es
  | EAnd es | EOr es | EAnyN _ _ es | EMatch es | EStringMatch _ _ es | EEqual _ _ _ _ es
  | EEqualRounded _ _ es | ECompare _ es | EDurationLT es | EDurationGTE es | ESum es
  | EProduct es | ESubtract es | EDivide es | EPower es | EIntegerDivide es
  | EIntegerModulus es | ECustomOperator es => all es
  | EContainerSize e | EIsNull e | EIndex _ e | EFieldValue _ e | ERandom _ e | ENot e
  | EPatternMatch _ e | EInside _ e | ETruncate e | ERound e | EIntegerToFloat e => mentions e
  | _ => []
  end.
End Wf.

(** ** Containers *)
(** [v] can be an operand of a container operator that builds a container of base type [b] *)
Definition operand_of (c : cardinality) (b : baseType) (v : value) : Prop :=
  base v = None /\ card v <> Some CRecord \/
  (base v = Some b /\ (members v = [] \/ card v = Some CSingle \/ card v = Some c)).
(** [l1] occurs in [l2] as a block of consecutive elements *)
Definition infix_of {A} (l1 l2 : list A) : Prop := exists p q, l2 = p ++ l1 ++ q.

(** ** Scores *)
Definition qsum (l : list Qc) : Qc := fold_right Qcplus (Q2Qc 0) l.
(** [r] is [q] moved into the interval between the given bounds *)
Definition bounded (lo hi : option Qc) (q r : Qc) : Prop :=
  (r = q /\ (forall l, lo = Some l -> Qcle l q) /\ (forall u, hi = Some u -> Qcle q u)) \/
  (lo = Some r /\ Qclt q r) \/ (hi = Some r /\ Qclt r q).
(** the score of a value in a table of (key, score) where the last entry for a key counts *)
Fixpoint last_entry {A B} (eqb : A -> A -> bool) (k : A) (l : list (A * B)) : option B :=
  match l with
  | [] => None
  | (k', x) :: l' => match last_entry eqb k l' with
                     | Some y => Some y
                     | None => if eqb k k' then Some x else None
                     end
  end.

(** ** Numbers *)
(** the number held by a single integer or float *)
Definition number (v : value) (x : Qc) : Prop :=
  (exists n, v = VSingle (Some BInteger) (Some (AInt n)) /\ x = qz n) \/
  v = VSingle (Some BFloat) (Some (AFloat x)).
Definition integer (n : Z) : value := VSingle (Some BInteger) (Some (AInt n)).
Definition qprod (l : list Qc) : Qc := fold_right Qcmult q1 l.
Definition zsum (l : list Z) : Z := fold_right Z.add 0 l.
Definition zprod (l : list Z) : Z := fold_right Z.mul 1 l.
(** the order relation named by a comparison operator *)
Definition related (op : cmpOp) (x y : Qc) : Prop :=
  match op with OpLT => Qclt x y | OpGT => Qclt y x | OpLTE => Qcle x y | OpGTE => Qcle y x end.

(** ** Lookup tables *)
Section Tables.
Context {X : Ext}.
(** [t] is the text of a value of type [bt], whose content is [oa] *)
Definition target (bt : option baseType) (t : option str) (oa : option atom) : Prop :=
  new_single bt (option_map RText t) = Ok (VSingle bt oa) /\
  (forall a, oa = Some a -> exists b, bt = Some b /\ wf_atom b a).
(** an entry (source value, includeBoundary, target) of an interpolation table applies *)
Definition applies (src : Qc) (e : Qc * bool * option str) : Prop :=
  let '(q, lte, _) := e in Qclt q src \/ (lte = true /\ q = src).
End Tables.
(** the number looked up in an interpolation table *)
Definition source (v : value) (x : Qc) : Prop :=
  number v x \/ v = VSingle (Some BDuration) (Some (AFloat x)).
