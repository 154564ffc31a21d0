(** What the response processing of a version 1 item means, stated on the answers of a session
    and independently of the version 2 expressions and rules it is migrated to. *)
From Coq Require Import QArith Qcanon.
From Verif Require Import Py Dec XmlUtils XmlChars Xsd Shapes QtiValue QtiExpr QtiSpec QtiProc QtiProcSpec V1Mig.
Open Scope Z_scope.
Open Scope list_scope.

(** The messages that do not announce a change of meaning: float equality and ellipses are
    deprecated, other is replaced by true (see [v1_run]) *)
Definition harmless (w : warning) : Prop := w = WFloatEqual \/ w = WEllipse \/ w = WOther.

Section Meaning.
Context {X : Ext}.

(** ** Conditions *)
(** The answers given to a version 1 identifier, and its declared type *)
Definition answers (st : state) (id : str) : list atom :=
  match assoc (v2id id) (s_map st) with Some v => members v | None => [] end.
Definition answer_type (st : state) (id : str) (b : baseType) : Prop :=
  exists d, assoc (v2id id) (i_decls (s_item st)) = Some d /\ d_base d = Some b.
(** The answers an index selects: all of them when there is none *)
Definition selected (st : state) (id : str) (index : option Z) : list atom :=
  match index with
  | None => answers st id
  | Some n => if n =? 0 then answers st id
              else match nth_error (answers st id) (Z.to_nat (n - 1)) with Some a => [a] | None => [] end
  end.
(** The value written in a test: white space around it does not count, a comma may separate the
    parts of a pair or point, and an identifier is repaired like those of the choices *)
Definition written (b : baseType) (text : str) : str :=
  match b with
  | BPair | BDirectedPair | BPoint => map (fun c => if c =? 44 then 32 else c) (strip text)
  | BIdentifier => v2id (strip text)
  | _ => strip text
  end.
Definition denotes (b : baseType) (text : str) (a : atom) : Prop :=
  parse_single b (RText (written b text)) = Ok (Some a).
Definition equals (case : bool) (b : baseType) (text : str) (a : atom) : Prop :=
  exists a', denotes b text a' /\
    (a = a' \/ case = false /\ exists s s', a = AStr s /\ a' = AStr s' /\ x_lower s = x_lower s').
Definition numeral (a : atom) (x : Qc) : Prop := (exists n, a = AInt n /\ x = qz n) \/ a = AFloat x.

Section Holds.
Variable other : Prop.     (* what <other/> means here *)
Variable st : state.
Fixpoint holds (e : v1expr) : Prop :=
  match e with
  | VarEqual case id index text =>
      exists b a, answer_type st id b /\ In a (selected st id index) /\ equals case b text a
  | VarInequality op id index text =>
      exists b a a' x y, answer_type st id b /\ In a (selected st id index) /\ denotes b text a' /\
        numeral a x /\ numeral a' y /\ related op x y
  | VarInside area id index text =>
      exists x y shape coords, In (APoint x y) (selected st id index) /\
        MigrateV2AreaCoords area text = Ok (shape, coords) /\
        TestPoint shape coords x y None None = Ok true
  | V1Not None => False
  | V1Not (Some e) => ~ holds e
  | V1And es => (fix all l := match l with [] => True | e :: l' => holds e /\ all l' end) es
  | V1Or es => (fix any l := match l with [] => False | e :: l' => holds e \/ any l' end) es
  | Other => other
  | Unsupported => False
  end.
Definition all_hold (es : list v1expr) : Prop := Forall holds es.
End Holds.

(** [P id index text] for every test, and for every test under a negation *)
Section Tests.
Variable P : str -> option Z -> str -> Prop.
Fixpoint each_test (e : v1expr) : Prop :=
  match e with
  | VarEqual _ id index text | VarInequality _ id index text | VarInside _ id index text => P id index text
  | V1Not (Some e) => each_test e
  | V1And es | V1Or es => (fix all l := match l with [] => True | e :: l' => each_test e /\ all l' end) es
  | _ => True
  end.
Fixpoint under_not (e : v1expr) : Prop :=
  match e with
  | V1Not (Some e) => each_test e
  | V1And es | V1Or es => (fix all l := match l with [] => True | e :: l' => under_not e /\ all l' end) es
  | _ => True
  end.
End Tests.
(** The response was answered, and the test does not compare with an empty text *)
Definition answered (st : state) (id : str) (index : option Z) (text : str) : Prop :=
  selected st id index <> [] /\ strip text <> [].
(** The tests can be made: the response is declared with a type the tests apply to, there is no
    index, the value written denotes a value of the type, and the area is one to test points with *)
Definition simple_index (index : option Z) : Prop := index = None \/ index = Some 0.
Definition readable (st : state) (id : str) (text : str) : Prop :=
  forall b, answer_type st id b -> b <> BDuration /\ exists oa, parse_single b (RText (written b text)) = Ok oa.
Definition declared_as (st : state) (id : str) (c : cardinality) : Prop :=
  exists d b, assoc (v2id id) (i_decls (s_item st)) = Some d /\ d_card d = Some c /\ d_base d = Some b.
Fixpoint testable (st : state) (e : v1expr) : Prop :=
  match e with
  | VarEqual _ id index text =>
      simple_index index /\ readable st id text /\
      (declared_as st id CSingle \/ declared_as st id CMultiple \/ declared_as st id COrdered)
  | VarInequality _ id index text => simple_index index /\ readable st id text
  | VarInside area id index text =>
      simple_index index /\
      forall x y, In (APoint x y) (answers st id) -> exists shape coords r,
        MigrateV2AreaCoords area text = Ok (shape, coords) /\ TestPoint shape coords x y None None = Ok r
  | V1Not (Some e) => testable st e
  | V1And es | V1Or es => (fix all l := match l with [] => True | e :: l' => testable st e /\ all l' end) es
  | _ => True
  end.
Fixpoint mentions_other (e : v1expr) : bool :=
  match e with
  | Other => true
  | V1Not (Some e) => mentions_other e
  | V1And es | V1Or es => (fix any l := match l with [] => false | e :: l' => mentions_other e || any l' end) es
  | _ => false
  end.

(** No construct that has no counterpart *)
Fixpoint supported (e : v1expr) : Prop :=
  match e with
  | Unsupported => False
  | V1Not (Some e) => supported e
  | V1And es | V1Or es => (fix all l := match l with [] => True | e :: l' => supported e /\ all l' end) es
  | _ => True
  end.
(** The base type of a vartype *)
Definition v1_base (t : varType) : baseType :=
  match t with
  | Integer => BInteger | String => BString | Decimal | Scientific => BFloat
  | Boolean => BBoolean | Enumerated | Set_ => BIdentifier
  end.

(** ** Actions *)
(** The number in a variable; None is NULL *)
Definition onumeral (oa : option atom) (x : Qc) : Prop := exists a, oa = Some a /\ numeral a x.
(** The effect of an action on a value: NULL stays NULL, dividing by zero gives NULL *)
Definition effect (act : action) (old lit new : option atom) : Prop :=
  match act with
  | ASet => new = lit
  | _ => ((old = None \/ lit = None) /\ new = None) \/
         exists x y, onumeral old x /\ onumeral lit y /\
           match act with
           | ASet => True
           | AAdd => onumeral new (Qcplus x y)
           | ASubtract => onumeral new (Qcminus x y)
           | AMultiply => onumeral new (Qcmult x y)
           | ADivide => (y = q0 /\ new = None) \/ (y <> q0 /\ onumeral new (Qcdiv x y))
           end
  end.
Definition only_changes (n : str) (st st' : state) : Prop :=
  s_item st' = s_item st /\ forall m, m <> n -> same_value st st' m.
Definition sets (s : setvar) (st st' : state) : Prop :=
  exists b old lit new,
    assoc (v2id (sv_name s)) (s_map st) = Some (VSingle (Some b) old) /\
    parse_single b (RText (strip (sv_text s))) = Ok lit /\
    assoc (v2id (sv_name s)) (s_map st') = Some (VSingle (Some b) new) /\
    effect (sv_action s) old lit new /\ only_changes (v2id (sv_name s)) st st'.
(** The action can be performed: the variable is a single outcome, the value written is one of its
    type, numbers are 32-bit where they are integers, arithmetic is on numbers and only floats are
    divided *)
Definition integer_result (act : action) (p q : Z) : Z :=
  match act with AAdd => p + q | ASubtract => p - q | AMultiply => p * q | _ => q end.
Definition settable (st : state) (s : setvar) : Prop :=
  exists d b old lit, assoc (v2id (sv_name s)) (i_decls (s_item st)) = Some d /\
    d_kind d = KOutcome /\ d_card d = Some CSingle /\ d_base d = Some b /\
    assoc (v2id (sv_name s)) (s_map st) = Some (VSingle (Some b) old) /\
    parse_single b (RText (strip (sv_text s))) = Ok lit /\
    (forall n, lit = Some (AInt n) -> int32 n) /\
    match sv_action s with
    | ASet => True
    | ADivide => b = BFloat
    | act => b = BFloat \/
        b = BInteger /\ forall p q, old = Some (AInt p) -> lit = Some (AInt q) -> int32 (integer_result act p q)
    end.
(** Feedback is shown by adding its identifier to the variable FEEDBACK *)
Definition shown (st : state) (id : str) : Prop :=
  exists v, assoc (lit "FEEDBACK") (s_map st) = Some v /\ In (AIdent id) (members v).
Definition shows (link : option str) (st st' : state) : Prop :=
  (forall id, shown st' id <-> shown st id \/ link = Some id) /\ only_changes (lit "FEEDBACK") st st'.

Inductive in_turn {A} (R : A -> state -> state -> Prop) : list A -> state -> state -> Prop :=
| turn_end st : in_turn R [] st st
| turn_step a l st st' st'' : R a st st' -> in_turn R l st' st'' -> in_turn R (a :: l) st st''.
Definition performs (r : respCondition) (st st' : state) : Prop :=
  exists st1, in_turn sets (rc_setvars r) st st1 /\ in_turn shows (rc_feedback r) st1 st'.

(** ** Response processing: the conditions in order; one that holds performs its actions and,
    unless it says continue, ends the processing; <other/> holds while no condition has held *)
Inductive v1_run : bool -> list condition_element -> state -> state -> Prop :=
| run_end fired st : v1_run fired [] st st
| run_extension fired l st st' : v1_run fired l st st' -> v1_run fired (ItemProcExtension :: l) st st'
| run_skip fired r l st st' :
    ~ all_hold (fired = false) st (rc_condition r) -> v1_run fired l st st' ->
    v1_run fired (RespCondition r :: l) st st'
| run_stop fired r l st st' :
    all_hold (fired = false) st (rc_condition r) -> rc_continue r = false -> performs r st st' ->
    v1_run fired (RespCondition r :: l) st st'
| run_continue fired r l st st1 st' :
    all_hold (fired = false) st (rc_condition r) -> rc_continue r = true -> performs r st st1 ->
    v1_run true l st1 st' -> v1_run fired (RespCondition r :: l) st st'.

(** Nothing continues before a use of <other/> *)
Fixpoint other_last (l : list condition_element) : Prop :=
  match l with
  | [] => True
  | ItemProcExtension :: l' => other_last l'
  | RespCondition r :: l' =>
      (rc_continue r = true -> forall r', In (RespCondition r') l' ->
         existsb mentions_other (rc_condition r') = false) /\ other_last l'
  end.

(** The parts migrated from a list of conditions, in order *)
Inductive migrated : item -> list condition_element -> item -> list (bool * (option expr * list responseRule)) -> list warning -> Prop :=
| mig_end i : migrated i [] i [] []
| mig_ext i l i' ps w : migrated i l i' ps w -> migrated i (ItemProcExtension :: l) i' ps w
| mig_cond i r i1 p w1 l i' ps w : MigratePart i r = Ok ((i1, p), w1) -> migrated i1 l i' ps w ->
    migrated i (RespCondition r :: l) i' ((rc_continue r, p) :: ps) (w1 ++ w).
(** The sequential reading of a list of guarded rules, with the state and the way it ends *)
Fixpoint in_sequence (l : list (bool * (option expr * list responseRule))) (st : state) : state * flow :=
  match l with
  | [] => (st, FNext)
  | (continue, (c, rs)) :: l' =>
      match condition st c with
      | Err e => (st, FErr e)
      | Ok false => in_sequence l' st
      | Ok true =>
          match run_rules setOutcome run_set_outcome rs st with
          | (st', FNext) => if continue then in_sequence l' st' else (st', FNext)
          | other => other
          end
      end
  end.
End Meaning.
