(** What the conversion of an item by the migration tool must do, stated on the version 1 item,
    on the declarations of the result, and on the meaning of its rules: the rules are read as
    version 2 rules, whose meaning is that of the player, and the version 1 conditions have the
    meaning of [V1MigSpec]. *)
From Coq Require Import QArith Qcanon.
From Verif Require Import Py Iso Dec XmlUtils XmlChars Xsd Shapes QtiValue QtiExpr QtiSpec QtiProc QtiProcSpec
  V1Mig V1MigSpec V1MigProofs2 MigWrite MigItem.
Open Scope Z_scope.
Open Scope list_scope.

(** ** Reading the rules as version 2 rules *)
Definition base_of (t : str) : option baseType :=
  assoc t [(lit "boolean", BBoolean); (lit "directedPair", BDirectedPair); (lit "duration", BDuration);
           (lit "file", BFile); (lit "float", BFloat); (lit "identifier", BIdentifier);
           (lit "integer", BInteger); (lit "pair", BPair); (lit "point", BPoint);
           (lit "string", BString); (lit "uri", BUri)].
Definition card_of (c : str) : option cardinality :=
  assoc c [(lit "multiple", CMultiple); (lit "ordered", COrdered); (lit "record", CRecord); (lit "single", CSingle)].
Definition shape_of (s : str) : option shape :=
  assoc s [(lit "circle", circle); (lit "default", default); (lit "ellipse", ellipse); (lit "poly", poly); (lit "rect", rect)].
Definition binary_of (n : str) : option (list QtiExpr.expr -> QtiExpr.expr) :=
  assoc n [(lit "match", EMatch); (lit "member", EMember); (lit "equal", EEqual TExact [] true true);
           (lit "lt", ECompare OpLT); (lit "lte", ECompare OpLTE); (lit "gt", ECompare OpGT); (lit "gte", ECompare OpGTE);
           (lit "subtract", ESubtract); (lit "divide", EDivide)].
Definition multi_of (n : str) : option (list QtiExpr.expr -> QtiExpr.expr) :=
  assoc n [(lit "and", EAnd); (lit "or", EOr); (lit "sum", ESum); (lit "product", EProduct);
           (lit "multiple", EMultiple); (lit "ordered", EOrdered)].
Definition all_some {A B} (f : A -> option B) : list A -> option (list B) :=
  fix go l := match l with
              | [] => Some []
              | x :: l' => match f x, go l' with Some y, Some ys => Some (y :: ys) | _, _ => None end
              end.
(** The expression of version 2 with the name of the operator *)
Fixpoint reads (e : MigWrite.expr) : option QtiExpr.expr :=
  match e with
  | BinaryOperator n l r =>
      match binary_of n, reads l, reads r with Some mk, Some a, Some b => Some (mk [a; b]) | _, _, _ => None end
  | MultiOperator n args =>
      match multi_of n, all_some reads args with Some mk, Some es => Some (mk es) | _, _ => None end
  | NotOperator e => option_map ENot (reads e)
  | CustomOperator _ args => option_map ECustomOperator (all_some reads args)
  | StringMatchOperator cs sub l r =>
      match reads l, reads r with Some a, Some b => Some (EStringMatch cs sub [a; b]) | _, _ => None end
  | VariableOperator i => Some (EVariable i)
  | IndexOperator e n => option_map (EIndex (Some n)) (reads e)
  | BaseValueOperator t v => match base_of t with Some b => Some (EBaseValue (Some b) v) | None => None end
  | IsNullOperator e => option_map EIsNull (reads e)
  | NullOperator => Some ENull
  | InsideOperator e s cs =>
      match shape_of s, reads e with
      | Some s, Some e => Some (EInside (fun p => TestPoint s (map (mkLen Pixel) cs) (fst p) (snd p) None None) e)
      | _, _ => None
      end
  end.
Definition reads_test (e : option MigWrite.expr) : option (option QtiExpr.expr) :=
  match e with Some e => option_map Some (reads e) | None => None end.
Fixpoint reads_rule (r : MigWrite.rule) : option responseRule :=
  let part := fun p : option MigWrite.expr * list MigWrite.rule =>
    match reads_test (fst p), all_some reads_rule (snd p) with Some e, Some l => Some (e, l) | _, _ => None end in
  match r with
  | SetOutcomeValue i e => option_map (fun e => Act (SetOutcome i (Some e))) (reads e)
  | ResponseCondition i elifs els =>
      match part i, all_some part elifs, match els with None => Some [] | Some l => all_some reads_rule l end with
      | Some p, Some ps, Some l => Some (Cond (p :: ps) l)
      | _, _, _ => None
      end
  end.
Definition reads_rules : list MigWrite.rule -> option (list responseRule) := all_some reads_rule.

(** The item a player sees *)
Definition reads_declaration (d : MigWrite.declaration) : QtiExpr.declaration :=
  let values := option_map (fun v : default_value => [mkVE [] None (fst v)]) in
  match d with
  | ResponseDeclaration i c t df => mkDecl i (card_of c) (base_of t) (values df) (KResponse None None None)
  | OutcomeDeclaration i c t df _ _ => mkDecl i (card_of c) (base_of t) (values df) KOutcome
  end.
Definition reads_item (s : MigItem.state) : QtiExpr.item :=
  let ds := map snd (declared s) in
  QtiExpr.mkItem [] (map reads_declaration (filter MigWrite.is_response ds))
    (map reads_declaration (filter (fun d => negb (MigWrite.is_response d)) ds)) false.

(** ** Identifiers *)
(** The identifier written for a version 1 identifier: spaces around it do not count, it is
    repaired, full stops become underscores *)
Definition cleaned (prefix value : str) : str :=
  map (fun c => if c =? 46 then 95 else c) (ValidateIdentifier (Shapes.strip value) prefix).
Definition response_id (v : str) : str := cleaned (lit "RESPONSE_") v.
Definition feedback_id (v : str) : str := cleaned (lit "FEEDBACK_") v.
Definition outcome_id (uc : bool) (v : str) : str :=
  let n := cleaned (lit "OUTCOME_") v in if uc then upper n else n.
Definition outcome_named (uc : bool) (v : option str) : str :=
  match v with Some v => outcome_id uc v | None => lit "SCORE" end.
(** A decvar is named by its attribute, or by its content if that is missing or SCORE *)
Definition decvar_id (uc : bool) (e : decvar_element) : str :=
  let data := Shapes.strip (de_data e) in
  let n := outcome_named uc (de_varname e) in
  match data with
  | [] => n
  | _ => if str_eqb n (lit "SCORE") then outcome_id uc data else n
  end.

(** The identifiers of the responses, with those of the parts of a split one; of the outcomes *)
Definition response_ids (r : response) : list str :=
  map (fun i => response_id (r_ident r) ++ lit "_INDEX_" ++ pystr (Z.of_nat i)) (seq 1 (r_split r)) ++
  [response_id (r_ident r)].
Definition setvar_ids (uc : bool) (p : resprocessing) : list str :=
  flat_map (fun c => map (fun v => outcome_named uc (MigItem.sv_varname v)) (MigItem.rc_setvars c)) (rp_conditions p).
Definition outcome_ids (uc : bool) (p : resprocessing) : list str :=
  map (decvar_id uc) (rp_decvars p) ++ setvar_ids uc p.

(** ** Declarations *)
Definition default_of (d : option str) : option default_value :=
  match d with Some [] | None => None | Some v => Some (v, None) end.
Definition renamed (i n : str) : Prop := n = i \/ exists k, 1 <= k <= 99 /\ n = i ++ pad 2 (fmt k).
(** Every variable has its own name, and is declared under it with its type: [R] names the
    responses, [O] the outcomes *)
Record named (uc : bool) (rs : list response) (p : resprocessing) (R O : str -> str)
    (ds : list (str * MigWrite.declaration)) : Prop := {
  n_responses : forall i j, In i (flat_map response_ids rs) -> In j (flat_map response_ids rs) -> R i = R j -> i = j;
  n_outcomes : forall i j, In i (outcome_ids uc p) -> In j (outcome_ids uc p) -> O i = O j -> i = j;
  n_apart : forall i j, In i (flat_map response_ids rs) -> In j (outcome_ids uc p) -> R i <> O j;
  n_feedback : (forall i, In i (flat_map response_ids rs) -> R i <> lit "FEEDBACK") /\
               (forall j, In j (outcome_ids uc p) -> O j <> lit "FEEDBACK");
  (* a name that is not needed twice is kept *)
  n_kept : NoDup (lit "FEEDBACK" :: flat_map response_ids rs ++ nodup str_eq_dec (outcome_ids uc p)) ->
    (forall i, In i (flat_map response_ids rs) -> R i = i) /\ (forall j, In j (outcome_ids uc p) -> O j = j);
  (* otherwise it gets a number *)
  n_numbered : (forall i, In i (flat_map response_ids rs) -> renamed i (R i)) /\ (forall j, In j (outcome_ids uc p) -> renamed j (O j));
  n_keys : NoDup (map fst ds) /\ forall n d, In (n, d) ds -> decl_identifier d = n;
  n_response : forall r, In r rs -> r_split r = 0%nat ->
    let n := R (response_id (r_ident r)) in
    In (n, ResponseDeclaration n (r_cardinality r) (r_baseType r) (default_of (r_default r))) ds;
  n_part : forall r i, In r rs -> (1 <= i <= r_split r)%nat ->
    let n := R (response_id (r_ident r) ++ lit "_INDEX_" ++ pystr (Z.of_nat i)) in
    In (n, ResponseDeclaration n (lit "single") (r_baseType r) None) ds;
  n_decvar : forall v, In v (rp_decvars p) ->
    let n := O (decvar_id uc v) in
    In (n, OutcomeDeclaration n (lit "single") (de_baseType v) (default_of (de_default v)) None None) ds;
  (* an outcome without decvar is a float *)
  n_implicit : forall j, In j (setvar_ids uc p) -> ~ In j (map (decvar_id uc) (rp_decvars p)) ->
    In (O j, OutcomeDeclaration (O j) (lit "single") (lit "float") None None None) ds }.

(** ** When an item can be converted *)
(** The cardinality and base type of the responses *)
Definition response_kinds (r : response) : list (str * (str * str)) :=
  map (fun i => (response_id (r_ident r) ++ lit "_INDEX_" ++ pystr (Z.of_nat i), (lit "single", r_baseType r)))
    (seq 1 (r_split r)) ++ [(response_id (r_ident r), (r_cardinality r, r_baseType r))].
(** An identifier that is not declared counts as a single identifier *)
Definition kind_of (rs : list response) (id : option str) : str * str :=
  match id with
  | None => (lit "single", lit "identifier")
  | Some v => match assoc (response_id v) (flat_map response_kinds rs) with
              | Some k => k
              | None => (lit "single", lit "identifier")
              end
  end.
Definition no_index (index : option Z) : Prop := index = None \/ index = Some 0.
Definition one_of (l : list string) (t : str) : Prop := exists n, In n l /\ t = lit n.
(** No index into a multiple response, equality on a type it is defined for, whole coordinates *)
Fixpoint acceptable (rs : list response) (e : test) : Prop :=
  match e with
  | TEqual _ id index _ =>
      let '(c, t) := kind_of rs id in
      (c = lit "multiple" -> no_index index) /\
      ((c = lit "single" \/ ~ no_index index) /\ one_of ["identifier"; "pair"; "integer"; "string"; "float"]%string t \/
       one_of ["identifier"; "pair"; "string"; "float"]%string t)
  | TIneq _ id index _ | TSubstring _ id index _ =>
      fst (kind_of rs id) = lit "multiple" -> no_index index
  | TSubset id _ _ => id <> None
  | TInside _ id index text => (fst (kind_of rs id) = lit "multiple" -> no_index index) /\ ~ In 46 text
  | TNot l | TAnd l | TOr l => (fix all l := match l with [] => True | e :: l' => acceptable rs e /\ all l' end) l
  | TUnanswered _ | TOther | TUnsupported => True
  end.

(** ** The variables that rules use *)
Fixpoint expr_vars (e : MigWrite.expr) : list str :=
  match e with
  | BinaryOperator _ l r | StringMatchOperator _ _ l r => expr_vars l ++ expr_vars r
  | MultiOperator _ l | CustomOperator _ l =>
      (fix all l := match l with [] => [] | e :: l' => expr_vars e ++ all l' end) l
  | NotOperator e | IndexOperator e _ | IsNullOperator e | InsideOperator e _ _ => expr_vars e
  | VariableOperator i => [i]
  | BaseValueOperator _ _ | NullOperator => []
  end.
Fixpoint rule_vars (r : MigWrite.rule) : list str :=
  let all := fix all l := match l with [] => [] | r :: l' => rule_vars r ++ all l' end in
  let part := fun p : option MigWrite.expr * list MigWrite.rule =>
    match fst p with Some e => expr_vars e | None => [] end ++ all (snd p) in
  match r with
  | SetOutcomeValue i e => i :: expr_vars e
  | ResponseCondition i elifs els =>
      part i ++ (fix parts l := match l with [] => [] | p :: l' => part p ++ parts l' end) elifs ++
      match els with Some l => all l | None => [] end
  end.
(** The outcomes that rules set *)
Fixpoint rule_sets (r : MigWrite.rule) : list str :=
  let all := fix all l := match l with [] => [] | r :: l' => rule_sets r ++ all l' end in
  match r with
  | SetOutcomeValue i _ => [i]
  | ResponseCondition i elifs els =>
      all (snd i) ++ (fix parts (l : list (option MigWrite.expr * list MigWrite.rule)) :=
                        match l with [] => [] | p :: l' => all (snd p) ++ parts l' end) elifs ++
      match els with Some l => all l | None => [] end
  end.
Definition closed (ds : list (str * MigWrite.declaration)) (r : MigWrite.rule) : Prop :=
  (forall n, In n (rule_vars r) -> In n (map fst ds)) /\
  (forall n, In n (rule_sets r) -> exists d, In (n, d) ds /\ MigWrite.is_response d = false).
Definition no_feedback (p : resprocessing) : Prop := forall c, In c (rp_conditions p) -> MigItem.rc_feedback c = [].

(** ** The version 1 program under the new names *)
Definition v1_cmp (op : ineq) : cmpOp := match op with Lt => OpLT | Lte => OpLTE | Gt => OpGT | Gte => OpGTE end.
Section Program.
Variables (uc : bool) (rs : list response) (R O : str -> str).
(** A choice is named by its cleaned identifier *)
Definition v1_text (id : option str) (text : str) : str :=
  if str_eqb (snd (kind_of rs id)) (lit "identifier") then response_id text else text.
Definition v1_name (id : option str) : str := match id with Some v => R (response_id v) | None => [] end.
Fixpoint v1_test (e : test) : v1expr :=
  match e with
  | TEqual case id index text => VarEqual case (v1_name id) index (v1_text id text)
  | TIneq op id index text => VarInequality (v1_cmp op) (v1_name id) index (v1_text id text)
  | TInside (Some a) id index text => VarInside a (v1_name id) index text
  | TNot [e] => V1Not (Some (v1_test e))
  | TNot l => V1Not (Some (V1And (map v1_test l)))
  | TAnd l => V1And (map v1_test l)
  | TOr l => V1Or (map v1_test l)
  | TOther => Other
  | _ => Unsupported
  end.
Definition v1_action (a : MigItem.action) : V1Mig.action :=
  match a with
  | MigItem.ASet => V1Mig.ASet | MigItem.AAdd => V1Mig.AAdd | MigItem.ASubtract => V1Mig.ASubtract
  | MigItem.AMultiply => V1Mig.AMultiply | MigItem.ADivide => V1Mig.ADivide
  end.
Definition v1_setvar (v : MigItem.setvar) : V1Mig.setvar :=
  mkSetVar (O (outcome_named uc (MigItem.sv_varname v))) (v1_action (MigItem.sv_action v)) (MigItem.sv_text v).
Definition v1_condition (c : MigItem.respcondition) : condition_element :=
  RespCondition (V1Mig.mkResp (MigItem.rc_continue c) (map v1_test (rc_tests c)) (map v1_setvar (MigItem.rc_setvars c))
    (map (fun f => Some (feedback_id f)) (MigItem.rc_feedback c))).
Definition v1_program (p : resprocessing) : list condition_element := map v1_condition (rp_conditions p).
End Program.

(** The constructs whose meaning is kept: tests of a declared response that is not split, without
    index, in a case-sensitive way or on strings or numbers; values without space around them *)
Fixpoint faithful (rs : list response) (e : test) : Prop :=
  match e with
  | TEqual case (Some id) index text =>
      exists r, In r rs /\ r_split r = 0%nat /\ response_id (r_ident r) = response_id id /\ no_index index /\
        (case = true \/ r_cardinality r = lit "single" /\ one_of ["integer"; "string"; "float"]%string (r_baseType r)) /\
        (r_baseType r = lit "identifier" \/ Shapes.strip text = text)
  | TIneq _ (Some id) index text =>
      exists r, In r rs /\ r_split r = 0%nat /\ response_id (r_ident r) = response_id id /\ no_index index /\
        r_cardinality r = lit "single" /\ one_of ["integer"; "float"]%string (r_baseType r) /\ Shapes.strip text = text
  | TInside (Some a) (Some id) index text =>
      exists r, In r rs /\ r_split r = 0%nat /\ response_id (r_ident r) = response_id id /\ no_index index /\
        r_cardinality r = lit "single" /\ r_baseType r = lit "point" /\
        exists l, MigItem.scan text false [] [] = Ok l /\ (4 <= length l)%nat
  | TOther => True
  | TNot l | TAnd l | TOr l =>
      l <> [] /\ (fix all l := match l with [] => True | e :: l' => faithful rs e /\ all l' end) l
  | _ => False
  end.
Definition faithful_condition (rs : list response) (c : MigItem.respcondition) : Prop :=
  rc_tests c <> [] /\ Forall (faithful rs) (rc_tests c) /\
  forall v, In v (MigItem.rc_setvars c) -> Shapes.strip (MigItem.sv_text v) = MigItem.sv_text v.
(** The types are those of version 2 *)
Definition typed_response (r : response) : Prop :=
  one_of ["single"; "multiple"; "ordered"]%string (r_cardinality r) /\ base_of (r_baseType r) <> None.

(** ** Bounds *)
(** The value an outcome ends with *)
Definition limited (lower upper : option Qc) (x : Qc) : Qc :=
  let x := match lower with Some m => if Qclt_le_dec x m then m else x | None => x end in
  match upper with Some m => if Qclt_le_dec m x then m else x | None => x end.
Section Bounded.
Context {X : Ext}.
Definition holds_null (st : QtiExpr.state) (n : str) : Prop := exists b, assoc n (s_map st) = Some (VSingle b None).
Definition holds_number (st : QtiExpr.state) (n : str) (x : Qc) : Prop :=
  exists b a, assoc n (s_map st) = Some (VSingle b (Some a)) /\ numeral a x.
(** Every outcome with a decvar is brought within its bounds, nothing else changes *)
Record bounded (uc : bool) (p : resprocessing) (O : str -> str) (st st' : QtiExpr.state) : Prop := {
  b_item : s_item st' = s_item st;
  b_null : forall e, In e (rp_decvars p) -> holds_null st (O (decvar_id uc e)) -> holds_null st' (O (decvar_id uc e));
  b_number : forall e x, In e (rp_decvars p) -> holds_number st (O (decvar_id uc e)) x ->
    holds_number st' (O (decvar_id uc e)) (limited (de_min e) (de_max e) x);
  b_same : forall n, (forall e, In e (rp_decvars p) -> n = O (decvar_id uc e) -> de_min e = None /\ de_max e = None) ->
    same_value st st' n }.
(** The bounds that are kept: not 0, of an integer and then whole and 32-bit, or of a float and
    then written in a way that is read as the same number *)
Definition keepable (str_float : Qc -> str) (e : decvar_element) : Prop :=
  forall q, de_min e = Some q \/ de_max e = Some q -> q <> qz 0 /\
    (de_baseType e = lit "integer" /\ (exists m, q = qz m /\ int32 m) \/
     de_baseType e = lit "float" /\ x_double (str_float q) = Ok q).
End Bounded.
