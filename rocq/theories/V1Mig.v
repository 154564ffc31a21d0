(** Model of the migration of QTI version 1 response processing:
    pyslet/pyslet/qtiv1/common.py 1043-1112 and 1158-1715 (decvar, setvar, displayfeedback,
    conditionvar and the condition elements), pyslet/pyslet/qtiv1/item.py 930-990 (declarations
    of the interactions of a response) and 1782-1955 (resprocessing, respcondition), and
    pyslet/pyslet/qtiv1/core.py 393-446 (vartype).

    Simplifications.
    - An element that holds character data has no child element.
    - The element tree is built by appending children; here each method returns the
      expression or rule it appends to its parent.
    - The log is the list of messages, one constructor for each message.
    - QTIUnimplementedError and QTIUnimplementedOperator are not defined in the modules that
      use them: raising one raises NameError.
    - normalMinimum, normalMaximum and masteryValue of an outcome declaration, interpretvar,
      and the content itemproc_extension adds to the item body are left out. *)
From Coq Require Import QArith Qcanon.
From Verif Require Iso.
From Verif Require Import Py Dec XmlUtils XmlChars Xsd Shapes QtiValue QtiExpr QtiProc.
Open Scope Z_scope.
Open Scope list_scope.

(** The messages appended to the log *)
Inductive warning :=
| WEmptyCondition | WEmptyNot | WEmptyAnd | WEmptyOr   (* 1271, 1620, 1652, 1680 *)
| WMissing (id : str)                                  (* 1304 *)
| WIndexMultiple | WIndexSingle                        (* 1310, 1312 *)
| WCase                                                (* 1359, 1377 *)
| WFloatEqual                                          (* 1367 *)
| WOther                                               (* 1702 *)
| WCoords | WEllipse                                   (* core.py 160, 183 *)
| WSet | WMembers.                                     (* 1080, 1097 *)

Definition logged (A : Type) : Type := result (A * list warning).
Definition say {A} (w : list warning) (m : logged A) : logged A :=
  '(a, l) <- m ;; Ok (a, w ++ l).
Definition lret {A} (a : A) : logged A := Ok (a, []).
Definition lbind {A B} (m : logged A) (k : A -> logged B) : logged B :=
  '(a, l) <- m ;; say l (k a).

(** The condition elements: common.py 1330-1715.  [Unsupported] is varsubset, varsubstring,
    durequal, durlt, durlte, durgt, durgte, unanswered or var_extension. *)
Inductive v1expr : Type :=
| VarEqual (case : bool) (respident : str) (index : option Z) (text : str)
| VarInequality (op : cmpOp) (respident : str) (index : option Z) (text : str)
| VarInside (areatype : area) (respident : str) (index : option Z) (text : str)
| V1Not (e : option v1expr)
| V1And (es : list v1expr)
| V1Or (es : list v1expr)
| Other
| Unsupported.

Definition underscore := lit "_".
(** qtiv2.core.ValidateIdentifier(x) *)
Definition v2id (x : str) : str := ValidateIdentifier x underscore.

(** v2Item.declarations.get(identifier,None) *)
Definition find_decl (i : item) (id : str) : option declaration := assoc id (i_decls i).

(** value.replace(',',' ') *)
Definition commas_to_spaces (s : str) : str := map (fun c => if c =? 44 then 32 else c) s.

(** VarThing.MigrateV2Variable: common.py 1307-1317 *)
Definition MigrateV2Variable (d : declaration) (index : option Z) : logged expr :=
  let var := EVariable (d_id d) in
  match index with
  | None => lret var
  | Some n =>
      if n =? 0 then lret var
      else match d_card d with
           | Some CMultiple => Ok (var, [WIndexMultiple])
           | Some CSingle => Ok (var, [WIndexSingle])
           | _ => lret (EIndex (Some n) var)
           end
  end.

(** VarThing.MigrateV2Value: common.py 1319-1327 *)
Definition MigrateV2Value (d : declaration) (text : str) : expr :=
  let value := strip text in
  let value := match d_base d with
               | Some BPair | Some BDirectedPair | Some BPoint => commas_to_spaces value
               | Some BIdentifier => v2id value
               | _ => value
               end in
  EBaseValue (d_base d) value.

(** The messages of MigrateV2AreaCoords: core.py 158-186 *)
Definition area_log (a : area) (value : str) : list warning :=
  match scan value false [] [] with
  | Ok coords =>
      match a with
      | Rectangle => if (length coords <? 4)%nat then [WCoords] else []
      | Ellipse =>
          match coords with
          | _ :: _ :: c2 :: c3 :: _ => if c2 =? c3 then [] else [WEllipse]
          | _ => []
          end
      | Bounded => []
      end
  | Err _ => []
  end.

(** VarEqual.MigrateV2Expression: common.py 1348-1386.  In the second part the test
    [d.baseType==identifier or BaseType.pair] is always true. *)
Definition MigrateVarEqual (i : item) (case : bool) (respident : str) (index : option Z) (text : str)
  : logged expr :=
  let identifier := v2id respident in
  let no_case := if case then [] else [WCase] in
  match find_decl i identifier with
  | None => Ok (ENull, [WMissing identifier])
  | Some d =>
      match d_card d with
      | Some CSingle =>
          '(mk, w) <- match d_base d with
                      | Some BIdentifier | Some BPair => Ok (EMatch, no_case)
                      | Some BInteger => Ok (EMatch, [])
                      | Some BString => Ok (EStringMatch case false, [])
                      | Some BFloat => Ok (EEqual TExact [] true true, [WFloatEqual])
                      | _ => Err NameError
                      end ;;
          say w (lbind (MigrateV2Variable d index) (fun var => lret (mk [var; MigrateV2Value d text])))
      | _ =>
          say no_case (lbind (MigrateV2Variable d index) (fun var =>
                         lret (EMember [MigrateV2Value d text; var])))
      end
  end.

(** VarInequality.MigrateV2Expression: common.py 1396-1411 *)
Definition MigrateVarInequality (i : item) (op : cmpOp) (respident : str) (index : option Z) (text : str)
  : logged expr :=
  let identifier := v2id respident in
  match find_decl i identifier with
  | None => Ok (ENull, [WMissing identifier])
  | Some d =>
      match d_card d, d_base d with
      | Some CSingle, Some BInteger | Some CSingle, Some BFloat =>
          lbind (MigrateV2Variable d index) (fun var => lret (ECompare op [var; MigrateV2Value d text]))
      | _, _ => Err NameError
      end
  end.

(** VarInside.MigrateV2Expression: common.py 1523-1538 *)
Definition MigrateVarInside (i : item) (a : area) (respident : str) (index : option Z) (text : str)
  : logged expr :=
  let identifier := v2id respident in
  match find_decl i identifier with
  | None => Ok (ENull, [WMissing identifier])
  | Some d =>
      match d_card d, d_base d with
      | Some CSingle, Some BPoint =>
          '(shape, coords) <- MigrateV2AreaCoords a text ;;
          say (area_log a text) (lbind (MigrateV2Variable d index) (fun var =>
            lret (EInside (fun p => TestPoint shape coords (fst p) (snd p) None None) var)))
      | _, _ => Err NameError
      end
  end.

Definition lmapM {A B} (f : A -> logged B) : list A -> logged (list B) :=
  fix go l := match l with
              | [] => lret []
              | x :: l' => lbind (f x) (fun y => lbind (go l') (fun ys => lret (y :: ys)))
              end.

(** MigrateV2Expression of the condition elements; Not 1618-1624, And 1645-1652, Or 1673-1680,
    Other 1701-1705, ExtendableExpressionMixin 1278-1279 *)
Fixpoint MigrateV2Expression (i : item) (e : v1expr) {struct e} : logged expr :=
  match e with
  | VarEqual case respident index text => MigrateVarEqual i case respident index text
  | VarInequality op respident index text => MigrateVarInequality i op respident index text
  | VarInside a respident index text => MigrateVarInside i a respident index text
  | V1Not None => Ok (ENull, [WEmptyNot])
  | V1Not (Some e) => lbind (MigrateV2Expression i e) (fun e' => lret (ENot e'))
  | V1And [] => Ok (ENull, [WEmptyAnd])
  | V1And es => lbind (lmapM (MigrateV2Expression i) es) (fun es' => lret (EAnd es'))
  | V1Or [] => Ok (ENull, [WEmptyOr])
  | V1Or es => lbind (lmapM (MigrateV2Expression i) es) (fun es' => lret (EOr es'))
  | Other => Ok (EBaseValue (Some BBoolean) (lit "true"), [WOther])
  | Unsupported => Err NameError
  end.

(** ConditionVar.MigrateV2Expression: common.py 1262-1272 *)
Definition MigrateConditionVar (i : item) (es : list v1expr) : logged expr :=
  match es with
  | [] => Ok (ENull, [WEmptyCondition])
  | [e] => MigrateV2Expression i e
  | _ => lbind (lmapM (MigrateV2Expression i) es) (fun es' => lret (EAnd es'))
  end.

(** qtiv1/core.py 63-85 Action; common.py 1158-1173 SetVar; the action None counts as Set *)
Inductive action := ASet | AAdd | ASubtract | AMultiply | ADivide.
Record setvar := mkSetVar { sv_name : str; sv_action : action; sv_text : str }.

(** SetVar.MigrateV2Rule: common.py 1175-1203 *)
Definition MigrateSetVar (i : item) (s : setvar) : result setOutcome :=
  let identifier := v2id (sv_name s) in
  match find_decl i identifier with
  | None => Err NameError
  | Some d =>
      match d_card d with
      | Some CSingle =>
          let var := EVariable identifier in
          let value := EBaseValue (d_base d) (strip (sv_text s)) in
          Ok (SetOutcome identifier (Some
               match sv_action s with
               | ASet => value
               | AAdd => ESum [var; value]
               | ASubtract => ESubtract [var; value]
               | AMultiply => EProduct [var; value]
               | ADivide => EDivide [var; value]
               end))
      | _ => Err NameError
      end
  end.

Definition FEEDBACK := lit "FEEDBACK".
Definition add_outcome (i : item) (d : declaration) : item :=
  mkItem (i_templates i) (i_responses i) (i_outcomes i ++ [d]) (i_adaptive i).
Definition add_response (i : item) (d : declaration) : item :=
  mkItem (i_templates i) (i_responses i ++ [d]) (i_outcomes i) (i_adaptive i).
(** DeclarationContainer.RegisterDeclaration: qtiv2/core.py 350-354 *)
Definition declare_outcome (i : item) (d : declaration) : result item :=
  match find_decl i (d_id d) with Some _ => Err DeclarationError | None => Ok (add_outcome i d) end.
Definition declare_response (i : item) (d : declaration) : result item :=
  match find_decl i (d_id d) with Some _ => Err DeclarationError | None => Ok (add_response i d) end.

(** DisplayFeedback.MigrateV2Rule: common.py 1225-1242; the repaired identifier it computes is
    not used *)
Definition feedback_decl : declaration := mkDecl FEEDBACK (Some CMultiple) (Some BIdentifier) None KOutcome.
Definition MigrateDisplayFeedback (i : item) (linkRefID : option str) : result (item * setOutcome) :=
  i' <- match find_decl i FEEDBACK with
        | Some _ => Ok i
        | None => declare_outcome i feedback_decl
        end ;;
  let text := match linkRefID with Some s => s | None => [] end in
  Ok (i', SetOutcome FEEDBACK (Some (EMultiple [EVariable FEEDBACK; EBaseValue (Some BIdentifier) text]))).

(** item.py 1865-1887 RespCondition *)
Record respCondition := mkResp {
  rc_continue : bool; rc_condition : list v1expr; rc_setvars : list setvar;
  rc_feedback : list (option str) }.
Inductive condition_element :=
| RespCondition (r : respCondition)
| ItemProcExtension.

(** Where the next rule goes.  [InRules d] is the list of rules found from the response
    processing by going [d] times into the responseElse of the last rule, [InCond d] is the last
    rule of that list, a responseCondition. *)
Inductive container := InRules (d : nat) | InCond (d : nat).

Fixpoint at_rules (d : nat) (f : list responseRule -> result (list responseRule))
    (rs : list responseRule) : result (list responseRule) :=
  match d with
  | O => f rs
  | S d' =>
      match rev rs with
      | Cond ps els :: rinit => els' <- at_rules d' f els ;; Ok (rev rinit ++ [Cond ps els'])
      | _ => Err TypeError
      end
  end.
(** A new responseCondition with its responseIf *)
Definition add_if (p : option expr * list responseRule) (rs : list responseRule)
  : result (list responseRule) := Ok (rs ++ [Cond [p] []]).
(** A new responseElseIf in the last rule *)
Definition add_else_if (p : option expr * list responseRule) (rs : list responseRule)
  : result (list responseRule) :=
  match rev rs with
  | Cond ps els :: rinit => Ok (rev rinit ++ [Cond (ps ++ [p]) els])
  | _ => Err TypeError
  end.

(** RespCondition.MigrateV2Rule: item.py 1937-1955, the position of the new part.  The part is
    attached before it is filled; nothing looks at it in between. *)
Definition place (continueFlag cMode : bool) (ruleContainer : container)
    (p : option expr * list responseRule) (rp : list responseRule)
  : result (list responseRule * container) :=
  if continueFlag then
    c <- (if cMode then Ok ruleContainer
          else match ruleContainer with
               | InCond d => Ok (InRules (S d))
               | InRules _ => Err TypeError
               end) ;;
    match c with
    | InRules d => rp' <- at_rules d (add_if p) rp ;; Ok (rp', c)
    | InCond _ => Err TypeError
    end
  else if cMode then
    match ruleContainer with
    | InRules d => rp' <- at_rules d (add_if p) rp ;; Ok (rp', InCond d)
    | InCond _ => Err TypeError
    end
  else
    match ruleContainer with
    | InCond d => rp' <- at_rules d (add_else_if p) rp ;; Ok (rp', ruleContainer)
    | InRules _ => Err TypeError
    end.

Fixpoint feedback_rules (i : item) (l : list (option str)) : result (item * list responseRule) :=
  match l with
  | [] => Ok (i, [])
  | x :: l' =>
      '(i, r) <- MigrateDisplayFeedback i x ;;
      '(i, rs) <- feedback_rules i l' ;;
      Ok (i, Act r :: rs)
  end.
(** The contents of the part: item.py 1950-1954 *)
Definition MigratePart (i : item) (r : respCondition)
  : logged (item * (option expr * list responseRule)) :=
  '(e, w) <- MigrateConditionVar i (rc_condition r) ;;
  acts <- map_result (MigrateSetVar i) (rc_setvars r) ;;
  '(i, fb) <- feedback_rules i (rc_feedback r) ;;
  Ok ((i, (Some e, map Act acts ++ fb)), w).

(** item.py 1817-1819 the loop over the conditions; ItemProcExtension.MigrateV2Rule 1978-1995 *)
Fixpoint MigrateConditions (i : item) (l : list condition_element) (cMode : bool)
    (ruleContainer : container) (rp : list responseRule)
  : logged (item * list responseRule) :=
  match l with
  | [] => lret (i, rp)
  | ItemProcExtension :: l' => MigrateConditions i l' cMode ruleContainer rp
  | RespCondition r :: l' =>
      lbind (MigratePart i r) (fun '(i, p) =>
        '(rp, c) <- place (rc_continue r) cMode ruleContainer p rp ;;
        MigrateConditions i l' (rc_continue r) c rp)
  end.

(** qtiv1/core.py 393-416 VarType: Boolean and Enumerated have the same number *)
Inductive varType := Integer | String | Decimal | Scientific | Boolean | Enumerated | Set_.
Definition vartype_code (t : varType) : Z :=
  match t with
  | Integer => 1 | String => 2 | Decimal => 3 | Scientific => 4 | Boolean => 5 | Enumerated => 5
  | Set_ => 6
  end.
(** MigrateV2VarType: core.py 418-446, a dictionary display: the last entry for a key counts *)
Definition MigrateV2VarType (code : Z) : result baseType :=
  match zget code (fold_left (fun m kv => zset (fst kv) (snd kv) m)
    [(vartype_code Integer, BInteger); (vartype_code String, BString);
     (vartype_code Decimal, BFloat); (vartype_code Scientific, BFloat);
     (vartype_code Boolean, BBoolean); (vartype_code Enumerated, BIdentifier);
     (vartype_code Set_, BIdentifier)] []) with
  | Some b => Ok b
  | None => Err KeyError
  end.

(** common.py 1043-1074 DecVar *)
Record decvar := mkDecVar {
  dv_name : str; dv_type : Z; dv_default : option str; dv_min : option Qc; dv_max : option Qc;
  dv_members : bool }.
(** DecVar.MigrateV2: common.py 1076-1102 *)
Definition MigrateDecVar (i : item) (v : decvar) : logged item :=
  t <- MigrateV2VarType (dv_type v) ;;
  let w := (if dv_type v =? vartype_code Set_ then [WSet] else []) ++ (if dv_members v then [WMembers] else []) in
  i <- declare_outcome i (mkDecl (v2id (dv_name v)) (Some CSingle) (Some t)
         (option_map (fun s => [mkVE [] None s]) (dv_default v)) KOutcome) ;;
  Ok (i, w).
Fixpoint MigrateDecVars (i : item) (l : list decvar) : logged item :=
  match l with
  | [] => lret i
  | v :: l' => lbind (MigrateDecVar i v) (fun i => MigrateDecVars i l')
  end.

(** ResProcessing.MigrateV2: item.py 1805-1819.  [fixups] is the dictionary _interactionFixup in
    the order of its sorted keys. *)
Record resProcessing := mkRes {
  rp_fixups : list (str * list str); rp_decvars : list decvar; rp_conditions : list condition_element }.
Definition fixup_rule (f : str * list str) : responseRule :=
  Act (SetOutcome (fst f) (Some (EMultiple (map EVariable (snd f))))).
Definition MigrateResProcessing (i : item) (r : resProcessing) : logged (item * list responseRule) :=
  lbind (MigrateDecVars i (rp_decvars r)) (fun i =>
    MigrateConditions i (rp_conditions r) true (InRules 0) (map fixup_rule (rp_fixups r))).

(** ** The declarations of a response: item.py 946-990 *)

(** qtiv1/core.py 376-386 *)
Inductive rCardinality := Single | Multiple | Ordered.
Definition MigrateV2Cardinality (c : rCardinality) : cardinality :=
  match c with Single => CSingle | Multiple => CMultiple | Ordered => COrdered end.

(** item.py 957-961 the loop that looks for an identifier: "%s_%02i"%(baseIdentifier,i) does not
    change inside it *)
Definition numbered (b : str) (n : nat) : str := b ++ lit "_" ++ Iso.pad 2 (Iso.fmt (Z.of_nat n)).
Fixpoint free_name (fuel : nat) (i : item) (b : str) (n : nat) : result str :=
  match fuel with
  | O => Err OutOfFuel
  | S fuel =>
      match find_decl i (numbered b n) with
      | None => Ok (numbered b n)
      | Some _ => free_name fuel i b n
      end
  end.
Fixpoint free_names (fuel : nat) (i : item) (b : str) (n : nat) (k : nat) : result (list str) :=
  match k with
  | O => Ok []
  | S k => x <- free_name fuel i b (S n) ;; xs <- free_names fuel i b (S n) k ;; Ok (x :: xs)
  end.
(** item.py 946-968 responseList, for [k] interactions *)
Definition response_names (fuel : nat) (i : item) (ident : str) (c : rCardinality) (k : nat)
  : result (list str) :=
  match k with
  | O => Ok []
  | S O => Ok [v2id ident]
  | _ => match c with Single => Ok [] | _ => free_names fuel i (v2id ident) 0 k end
  end.
(** item.py 969-988; [defaults] are the default values of the declarations.  Returns the item
    and the entry for _interactionFixup, if any. *)
Fixpoint declare_responses (i : item) (c : cardinality) (bt : baseType)
    (l : list (str * option (list valueElement))) : result item :=
  match l with
  | [] => Ok i
  | (r, dv) :: l' =>
      i <- declare_response i (mkDecl r (Some c) (Some bt) dv (KResponse None None None)) ;;
      declare_responses i c bt l'
  end.
Definition MigrateResponse (fuel : nat) (i : item) (ident : str) (c : rCardinality) (bt : baseType)
    (defaults : list (option (list valueElement))) : result (item * option (str * list str)) :=
  names <- response_names fuel i ident c (length defaults) ;;
  i <- declare_responses i (MigrateV2Cardinality c) bt (combine names defaults) ;;
  if (1 <? length names)%nat then
    i <- declare_outcome i (mkDecl (v2id ident) (Some (MigrateV2Cardinality c)) (Some bt) None KOutcome) ;;
    Ok (i, Some (v2id ident, names))
  else Ok (i, None).
