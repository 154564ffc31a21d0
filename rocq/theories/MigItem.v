(** Model of QTIMigration/lib/imsqtiv1.py: the variables of an item (470-717, 741-775), the
    declaration of responses (2208-2310, 2785-2805) and response processing (3135-3965);
    QTIMigration/lib/imsqti.py 143-163 (variables of the item written).

    Simplifications.
    - Attributes are given as read: yes/no values as booleans, an absent or unreadable index is
      None, an absent identifier is None.  The warnings are left out.
    - A dictionary is the list of its entries in the order of insertion; the order in which the
      rules for the bounds are written is the order of that list.
    - A declaration object is in two dictionaries: SetInterpretation and SetNormalMaximum, which
      change it, are left out.
    - QTIException (core.py of the tool) is [ProcessingError]; naming a message that is not defined
      raises NameError before it.
    - qti2.ValidateIdentifier is a parameter [V]: see [no_validate] and [with_validate]. *)
From Coq Require Import QArith Qcanon Qround.
From Verif Require Import Py Iso Dec XmlUtils XmlChars Shapes MigWrite.
Open Scope Z_scope.
Open Scope list_scope.

(** ** Dictionaries *)
Fixpoint dget {A} (k : str) (d : list (str * A)) : option A :=
  match d with
  | [] => None
  | (k', v) :: d' => if str_eqb k k' then Some v else dget k d'
  end.
Definition has_key {A} (k : str) (d : list (str * A)) : bool :=
  match dget k d with Some _ => true | None => false end.
Fixpoint dset {A} (k : str) (v : A) (d : list (str * A)) : list (str * A) :=
  match d with
  | [] => [(k, v)]
  | (k', v') :: d' => if str_eqb k k' then (k, v) :: d' else (k', v') :: dset k v d'
  end.
Fixpoint ddel {A} (k : str) (d : list (str * A)) : list (str * A) :=
  match d with
  | [] => []
  | (k', v) :: d' => if str_eqb k k' then d' else (k', v) :: ddel k d'
  end.

(** imsqtiv1.py 3200-3260 DecVar, as read; floats are exact *)
Record decvar := mkDec {
  dv_identifier : str; dv_baseType : str; dv_default : option str;
  dv_min : option Qc; dv_max : option Qc }.

(** The values of self.variables: None for FEEDBACK, a declaration for a response, a pair for an
    outcome *)
Inductive entry :=
| Reserved
| Declared (d : declaration)
| Outcome (d : declaration) (v : option decvar).

(** imsqtiv1.py 481-505 QTIItem, with the variables and the response processing of its item;
    [rules] is None until GetResponseProcessing is called *)
Record state := mkState {
  variables : list (str * entry);
  responses : list (str * str);
  outcomes : list (str * str);
  declareFeedback : bool;
  declared : list (str * declaration);
  rules : option (list rule) }.
Definition FEEDBACK := lit "FEEDBACK".
Definition new_item : state := mkState [(FEEDBACK, Reserved)] [] [] false [] None.

(** imsqti.py 143-146 AssessmentItem.DeclareVariable: QTIException is not defined there *)
Definition DeclareVariable (d : declaration) (vs : list (str * declaration))
  : result (list (str * declaration)) :=
  if has_key (decl_identifier d) vs then Err NameError else Ok (dset (decl_identifier d) d vs).

(** imsqtiv1.py 531-540 UniqueVarName; string.zfill(n,2).  [k] numbers are left to try;
    eTooManySimilarVariables is not defined *)
Definition numbered (base : str) (n : Z) : str := base ++ pad 2 (fmt n).
Fixpoint unique_from (vs : list (str * entry)) (base : str) (n : Z) (k : nat) : result str :=
  match k with
  | O => Err NameError
  | S k' => if has_key (numbered base n) vs then unique_from vs base (n + 1) k' else Ok (numbered base n)
  end.
Definition UniqueVarName (s : state) (base : str) : result str := unique_from (variables s) base 1 99.

(** The name for a new variable: 545-549, 560-564, 636-640, 657-661 *)
Definition new_name (s : state) (identifier : str) : result str :=
  if has_key identifier (variables s) then UniqueVarName s identifier else Ok identifier.

(** imsqtiv1.py 542-555 DeclareResponse and 557-568 DeclareFakeResponse; [mk] makes the
    declaration.  eDuplicateResponse is not defined. *)
Definition declare_response (mk : str -> declaration) (s : state) (identifier : str) : result (state * str) :=
  if has_key identifier (responses s) then Err NameError
  else
    n <- new_name s identifier ;;
    ds <- DeclareVariable (mk n) (declared s) ;;
    Ok (mkState (dset n (Declared (mk n)) (variables s)) (dset identifier n (responses s)) (outcomes s)
          (declareFeedback s) ds (rules s), n).
(** [if default: ...]: an empty default is not set *)
Definition set_default (default : option str) : option default_value :=
  match default with Some (c :: s) => Some (c :: s, None) | _ => None end.
Definition DeclareResponse (s : state) (identifier cardinality baseType : str) (default : option str) :=
  declare_response (fun n => ResponseDeclaration n cardinality baseType (set_default default)) s identifier.
Definition DeclareFakeResponse (s : state) (identifier cardinality baseType : str) :=
  declare_response (fun n => OutcomeDeclaration n cardinality baseType None None None) s identifier.

(** imsqtiv1.py 570-574 GetResponse *)
Definition GetResponse (s : state) (identifier : option str) : option declaration :=
  match identifier with
  | None => None
  | Some identifier =>
      match dget identifier (responses s) with
      | None => None
      | Some n => match dget n (variables s) with Some (Declared d) => Some d | _ => None end
      end
  end.

(** imsqtiv1.py 633-645 DeclareOutcome *)
Definition declare_outcome (s : state) (identifier baseType : str) (default : option str) (v : option decvar)
  : result (state * declaration) :=
  n <- new_name s identifier ;;
  let d := OutcomeDeclaration n (lit "single") baseType (set_default default) None None in
  ds <- DeclareVariable d (declared s) ;;
  Ok (mkState (dset n (Outcome d v) (variables s)) (responses s) (dset identifier n (outcomes s))
        (declareFeedback s) ds (rules s), d).
Definition DeclareOutcome (s : state) (v : decvar) : result state :=
  if has_key (dv_identifier v) (outcomes s) then Err ProcessingError
  else '(s, _) <- declare_outcome s (dv_identifier v) (dv_baseType v) (dv_default v) (Some v) ;; Ok s.

(** imsqtiv1.py 652-665 GetOutcome *)
Definition GetOutcome (s : state) (identifier : str) : result (state * declaration) :=
  match dget identifier (outcomes s) with
  | Some n => match dget n (variables s) with Some (Outcome d _) => Ok (s, d) | _ => Err KeyError end
  | None => declare_outcome s identifier (lit "float") None None
  end.

(** imsqtiv1.py 647-650 DeclareFeedback *)
Definition feedback_declaration :=
  OutcomeDeclaration FEEDBACK (lit "multiple") (lit "identifier") None None None.
Definition DeclareFeedback (s : state) : result state :=
  if declareFeedback s then Ok s
  else
    ds <- DeclareVariable feedback_declaration (declared s) ;;
    Ok (mkState (variables s) (responses s) (outcomes s) true ds (rules s)).

(** imsqtiv1.py 624-631 ResetResprocessing; imsqti.py 148-153 *)
Definition ResetResprocessing (s : state) : state :=
  mkState (fold_left (fun vs o => ddel (snd o) vs) (outcomes s) (variables s)) (responses s) []
    (declareFeedback s) (filter (fun d => is_response (snd d)) (declared s)) None.

(** AssessmentItem.GetResponseProcessing().AddResponseRule(rule) *)
Definition add_rule (s : state) (r : rule) : state :=
  mkState (variables s) (responses s) (outcomes s) (declareFeedback s) (declared s)
    (Some (match rules s with Some l => l | None => [] end ++ [r])).
Definition set_rules (s : state) (l : list rule) : state :=
  mkState (variables s) (responses s) (outcomes s) (declareFeedback s) (declared s) (Some l).

(** ** Identifiers *)
(** qti2.ValidateIdentifier: pyslet/pyslet/imsqtiv2p1.py has no such name (35 has it under
    another one), so at this commit the lookup raises AttributeError *)
Definition validate := str -> str -> result str.
Definition no_validate : validate := fun _ _ => Err AttributeError.
Definition with_validate : validate := fun value prefix => Ok (ValidateIdentifier value prefix).

Definition RESPONSE_PREFIX := lit "RESPONSE_".
Definition OUTCOME_PREFIX := lit "OUTCOME_".
Definition FEEDBACK_PREFIX := lit "FEEDBACK_".

Section Convert.
Variable V : validate.

(** imsqtiv1.py 151-158 ReadIdentifier *)
Definition ReadIdentifier (value prefix : str) : result str :=
  n <- V (strip value) prefix ;;
  Ok (map (fun c => if c =? 46 then 95 else c) n).

(** The attribute is read only if there is one *)
Definition ReadAttribute (value : option str) (prefix : str) : result (option str) :=
  match value with None => Ok None | Some v => n <- ReadIdentifier v prefix ;; Ok (Some n) end.

(** ** Areas *)
(** int(s) of a string of digits and full stops: a full stop is a ValueError *)
Definition int_digits (s : str) : result Z := if mem 46 s then Err ValueError else Ok (dval s).
(** imsqtiv1.py 176-189 the scanner; [vStr] and [coords] are reversed *)
Fixpoint scan (s : str) (sep : bool) (vStr : str) (coords : list Z) : result (list Z) :=
  match s with
  | [] =>
      match vStr with
      | [] => Ok (rev coords)
      | _ => v <- int_digits (rev vStr) ;; Ok (rev (v :: coords))
      end
  | c :: s' =>
      if is_num_char c then
        if sep && match vStr with [] => false | _ => true end then
          v <- int_digits (rev vStr) ;; scan s' false [c] (v :: coords)
        else scan s' sep (c :: vStr) coords
      else scan s' true vStr coords
  end.
(** imsqtiv1.py 172-210 ConvertAreaCoords, for the three shapes and for 'default' (None) *)
Definition ConvertAreaCoords (a : option area) (value : str) : result (str * list Z) :=
  coords <- scan value false [] [] ;;
  match a with
  | Some Rectangle =>
      match pad4 coords with
      | c0 :: c1 :: c2 :: c3 :: _ => Ok (lit "rect", [c0; c1; c0 + c3 - 1; c1 + c2 - 1])
      | _ => Err IndexError
      end
  | Some Ellipse =>
      match pad4 coords with
      | c0 :: c1 :: c2 :: c3 :: _ =>
          if c2 =? c3 then Ok (lit "circle", [c0; c1; c2 / 2])
          else Ok (lit "ellipse", [c0; c1; c2 / 2; c3 / 2])
      | _ => Err IndexError
      end
  | Some Bounded => Ok (lit "poly", coords)
  | None => Ok (lit "default", coords)
  end.

(** ** Conditions *)
Inductive ineq := Lt | Lte | Gt | Gte.
(** 3465-3900; [TUnsupported] is durequal, durlt, durlte, durgt, durgte or var_extension, which
    startElement skips (4143-4166) *)
Inductive test : Type :=
| TEqual (case : bool) (respident : option str) (index : option Z) (text : str)
| TIneq (op : ineq) (respident : option str) (index : option Z) (text : str)
| TSubset (respident : option str) (index : option Z) (text : str)
| TSubstring (case : bool) (respident : option str) (index : option Z) (text : str)
| TInside (a : option area) (respident : option str) (index : option Z) (text : str)
| TUnanswered (respident : option str)
| TOther
| TNot (l : list test)
| TAnd (l : list test)
| TOr (l : list test)
| TUnsupported.

Definition decl_cardinality (d : declaration) : str :=
  match d with ResponseDeclaration _ c _ _ => c | OutcomeDeclaration _ c _ _ _ _ => c end.
Definition decl_baseType (d : declaration) : str :=
  match d with ResponseDeclaration _ _ t _ => t | OutcomeDeclaration _ _ t _ _ _ => t end.

(** imsqtiv1.py 3627-3648 MakeVariableExpression: the expression, its cardinality and base type.
    eIndexIntoMultiple is not defined. *)
Definition MakeVariableExpression (s : state) (identifier : option str) (index : option Z)
  : result (expr * str * str) :=
  match GetResponse s identifier with
  | Some d =>
      let var := VariableOperator (decl_identifier d) in
      let c := decl_cardinality d in let t := decl_baseType d in
      match index with
      | None => Ok (var, c, t)
      | Some n =>
          if n =? 0 then Ok (var, c, t)
          else if str_eqb c (lit "multiple") then Err NameError
          else if str_eqb c (lit "single") then Ok (var, c, t)
          else Ok (IndexOperator var n, lit "single", t)
      end
  | None => Ok (NullOperator, lit "single", lit "identifier")
  end.
Definition commas_to_spaces (s : str) : str := map (fun c => if c =? 44 then 32 else c) s.
(** imsqtiv1.py 3650-3658 MakeSingleValue *)
Definition MakeSingleValue (baseType text : str) : result expr :=
  v <- (if str_eqb baseType (lit "pair") || str_eqb baseType (lit "directedPair") then Ok (commas_to_spaces text)
        else if str_eqb baseType (lit "identifier") then ReadIdentifier text RESPONSE_PREFIX
        else Ok text) ;;
  Ok (BaseValueOperator baseType v).

Definition MatchOperator := BinaryOperator (lit "match").
Definition MemberOperator := BinaryOperator (lit "member").
Definition ineq_name (op : ineq) : string :=
  match op with Lt => "lt" | Lte => "lte" | Gt => "gt" | Gte => "gte" end%string.
Definition is_type (l : list string) (t : str) : bool := existsb (fun n => str_eqb t (lit n)) l.

(** imsqtiv1.py 3680-3717 VarEqual.CloseObject *)
Definition CloseEqual (s : state) (case : bool) (identifier : option str) (index : option Z) (text : str)
  : result expr :=
  '(var, c, t) <- MakeVariableExpression s identifier index ;;
  val <- MakeSingleValue t text ;;
  if str_eqb c (lit "single") then
    if is_type ["identifier"; "pair"; "integer"]%string t then Ok (MatchOperator var val)
    else if str_eqb t (lit "string") then Ok (StringMatchOperator case false var val)
    else if str_eqb t (lit "float") then Ok (BinaryOperator (lit "equal") var val)
    else Err ProcessingError
  else
    if is_type ["identifier"; "pair"; "string"; "float"]%string t then Ok (MemberOperator val var)
    else Err ProcessingError.
(** imsqtiv1.py 3720-3842 the inequalities *)
Definition CloseIneq (s : state) (op : ineq) (identifier : option str) (index : option Z) (text : str)
  : result expr :=
  '(var, c, t) <- MakeVariableExpression s identifier index ;;
  val <- MakeSingleValue t text ;;
  if str_eqb c (lit "single") then
    if is_type ["integer"; "float"]%string t then Ok (BinaryOperator (lit (ineq_name op)) var val)
    else if str_eqb t (lit "string") then Ok (CustomOperator (Some (lit "var" ++ lit (ineq_name op))) [var; val])
    else Ok NullOperator
  else Ok NullOperator.
(** imsqtiv1.py 3845-3898 VarSubset: the index is ignored; the message about a single match adds the
    identifier to a string, a TypeError if there is none *)
Definition CloseSubset (s : state) (identifier : option str) (text : str) : result expr :=
  '(var, c, t) <- MakeVariableExpression s identifier None ;;
  val <- MakeSingleValue t text ;;
  if str_eqb c (lit "single") then
    match identifier with Some _ => Ok (MatchOperator var val) | None => Err TypeError end
  else Ok (MemberOperator val var).
(** imsqtiv1.py 3902-3935 VarSubstring *)
Definition CloseSubstring (s : state) (case : bool) (identifier : option str) (index : option Z) (text : str)
  : result expr :=
  '(var, c, t) <- MakeVariableExpression s identifier index ;;
  val <- MakeSingleValue t text ;;
  if negb (str_eqb t (lit "string")) then Ok NullOperator
  else if negb (str_eqb c (lit "single")) then Ok NullOperator
  else Ok (StringMatchOperator case true var val).
(** imsqtiv1.py 3937-3973 VarInside *)
Definition CloseInside (s : state) (a : option area) (identifier : option str) (index : option Z) (text : str)
  : result expr :=
  '(shape, coords) <- ConvertAreaCoords a text ;;
  '(var, _, _) <- MakeVariableExpression s identifier index ;;
  Ok (InsideOperator var shape coords).

Definition map_concat {A B} (f : A -> result (list B)) : list A -> result (list B) :=
  fix go l := match l with [] => Ok [] | x :: l' => a <- f x ;; b <- go l' ;; Ok (a ++ b) end.

(** CloseObject of the condition elements: the expressions added to the parent *)
Fixpoint CloseTest (s : state) (e : test) {struct e} : result (list expr) :=
  let one := fun r : result expr => x <- r ;; Ok [x] in
  match e with
  | TEqual case id index text =>
      id <- ReadAttribute id RESPONSE_PREFIX ;; one (CloseEqual s case id index text)
  | TIneq op id index text =>
      id <- ReadAttribute id RESPONSE_PREFIX ;; one (CloseIneq s op id index text)
  | TSubset id _ text => id <- ReadAttribute id RESPONSE_PREFIX ;; one (CloseSubset s id text)
  | TSubstring case id index text =>
      id <- ReadAttribute id RESPONSE_PREFIX ;; one (CloseSubstring s case id index text)
  | TInside a id index text =>
      id <- ReadAttribute id RESPONSE_PREFIX ;; one (CloseInside s a id index text)
  | TUnanswered id =>                                                     (* 3594-3602 *)
      id <- ReadAttribute id RESPONSE_PREFIX ;;
      match GetResponse s id with
      | Some d => Ok [IsNullOperator (VariableOperator (decl_identifier d))]
      | None => Ok [NullOperator]
      end
  | TOther => Ok [BaseValueOperator (lit "boolean") (lit "true")]         (* 3569-3571 *)
  | TNot l =>                                                             (* 3532-3546 *)
      es <- map_concat (CloseTest s) l ;;
      match es with
      | [] => Ok [NullOperator]
      | [e] => Ok [NotOperator e]
      | _ => Ok [NotOperator (MultiOperator (lit "and") es)]
      end
  | TAnd l => es <- map_concat (CloseTest s) l ;; Ok [MultiOperator (lit "and") es]  (* 3485-3489 *)
  | TOr l => es <- map_concat (CloseTest s) l ;; Ok [MultiOperator (lit "or") es]    (* 3507-3511 *)
  | TUnsupported => Ok []
  end.
(** imsqtiv1.py 3452-3464 ConditionVar.CloseObject *)
Definition CloseConditionVar (s : state) (l : list test) : result expr :=
  es <- map_concat (CloseTest s) l ;;
  match es with
  | [] => Ok NullOperator
  | [e] => Ok e
  | _ => Ok (MultiOperator (lit "and") es)
  end.

(** ** Actions *)
Inductive action := ASet | AAdd | ASubtract | AMultiply | ADivide.
Record setvar := mkSet { sv_varname : option str; sv_action : action; sv_text : str }.
(** Identifiers of outcomes; [ucVars] makes them upper case, ASCII letters only here *)
Variable ucVars : bool.
Definition upper (s : str) : str := map (fun c => if (97 <=? c) && (c <=? 122) then c - 32 else c) s.
Definition outcome_id (v : str) : result str :=
  n <- ReadIdentifier v OUTCOME_PREFIX ;; Ok (if ucVars then upper n else n).
Definition varname (v : option str) : result str :=
  match v with None => Ok (lit "SCORE") | Some v => outcome_id v end.
(** imsqtiv1.py 3377-3404 SetVar.CloseObject *)
Definition CloseSetVar (s : state) (v : setvar) : result (state * rule) :=
  id <- varname (sv_varname v) ;;
  '(s, d) <- GetOutcome s id ;;
  let var := VariableOperator (decl_identifier d) in
  let val := BaseValueOperator (decl_baseType d) (sv_text v) in
  Ok (s, SetOutcomeValue (decl_identifier d)
    match sv_action v with
    | ASet => val
    | AAdd => MultiOperator (lit "sum") [var; val]
    | ASubtract => BinaryOperator (lit "subtract") var val
    | AMultiply => MultiOperator (lit "product") [var; val]
    | ADivide => BinaryOperator (lit "divide") var val
    end).
(** imsqtiv1.py 3427-3433 DisplayFeedback.CloseObject; without linkrefid the value is None and
    writing it raises an exception later: not modelled, the identifier is given *)
Definition CloseDisplayFeedback (s : state) (linkrefid : str) : result (state * rule) :=
  id <- ReadIdentifier linkrefid FEEDBACK_PREFIX ;;
  s <- DeclareFeedback s ;;
  Ok (s, SetOutcomeValue FEEDBACK
    (MultiOperator (lit "multiple") [VariableOperator FEEDBACK; BaseValueOperator (lit "identifier") id])).

Record respcondition := mkResp {
  rc_continue : bool; rc_tests : list test; rc_setvars : list setvar; rc_feedback : list str }.
Definition thread {A} (f : state -> A -> result (state * rule)) : state -> list A -> result (state * list rule) :=
  fix go s l := match l with
                | [] => Ok (s, [])
                | x :: l' => '(s, r) <- f s x ;; '(s, rs) <- go s l' ;; Ok (s, r :: rs)
                end.

(** ** Placing the conditions: imsqtiv1.py 3154-3184 AddRespCondition.
    [InRules d]: rpAddPoint is the response processing (d = 0) or the responseElse of the last
    rule at depth d-1; [InCond d]: it is the last rule at depth d *)
Inductive point := InRules (d : nat) | InCond (d : nat).
Fixpoint at_depth (d : nat) (f : list rule -> result (list rule)) (rs : list rule) : result (list rule) :=
  match d with
  | O => f rs
  | S d' =>
      match rev rs with
      | ResponseCondition i elifs els :: before =>
          l <- at_depth d' f match els with Some l => l | None => [] end ;;
          Ok (rev before ++ [ResponseCondition i elifs (Some l)])
      | _ => Err AttributeError
      end
  end.
Definition add_condition (p : option expr * list rule) (rs : list rule) : result (list rule) :=
  Ok (rs ++ [ResponseCondition p [] None]).
Definition add_else_if (p : option expr * list rule) (rs : list rule) : result (list rule) :=
  match rev rs with
  | ResponseCondition i elifs els :: before => Ok (rev before ++ [ResponseCondition i (elifs ++ [p]) els])
  | _ => Err AttributeError
  end.
Definition AddRespCondition (p : option expr * list rule) (continueFlag continueMode : bool) (pt : point)
    (rs : list rule) : result (list rule * point) :=
  if continueFlag then
    pt <- (if continueMode then Ok pt
           else match pt with InCond d => Ok (InRules (S d)) | InRules _ => Err AttributeError end) ;;
    match pt with
    | InRules d => rs <- at_depth d (add_condition p) rs ;; Ok (rs, pt)
    | InCond _ => Err AttributeError
    end
  else if continueMode then
    match pt with
    | InRules d => rs <- at_depth d (add_condition p) rs ;; Ok (rs, InCond d)
    | InCond _ => Err AttributeError
    end
  else
    match pt with
    | InCond d => rs <- at_depth d (add_else_if p) rs ;; Ok (rs, pt)
    | InRules _ => Err AttributeError
    end.

(** One respcondition: its condition, its actions, then its place *)
Definition CloseRespCondition (s : state) (r : respcondition)
  : result (state * (option expr * list rule)) :=
  e <- CloseConditionVar s (rc_tests r) ;;
  '(s, sets) <- thread CloseSetVar s (rc_setvars r) ;;
  '(s, shows) <- thread CloseDisplayFeedback s (rc_feedback r) ;;
  Ok (s, (Some e, sets ++ shows)).
Fixpoint CloseRespConditions (s : state) (l : list respcondition) (continueMode : bool) (pt : point)
    (rs : list rule) : result (state * list rule) :=
  match l with
  | [] => Ok (s, rs)
  | r :: l' =>
      '(s, p) <- CloseRespCondition s r ;;
      '(rs, pt) <- AddRespCondition p (rc_continue r) continueMode pt rs ;;
      CloseRespConditions s l' (rc_continue r) pt rs
  end.

(** A decvar as written; 3232-3270 SetAttribute_varname, CloseObject *)
Record decvar_element := mkDecE {
  de_varname : option str; de_baseType : str; de_default : option str; de_min : option Qc; de_max : option Qc;
  de_data : str }.
Definition CloseDecVar (s : state) (e : decvar_element) : result state :=
  id <- match de_varname e with None => Ok None | Some v => n <- outcome_id v ;; Ok (Some n) end ;;
  let data := strip (de_data e) in
  id <- (if negb (str_eqb data []) && match id with None => true | Some n => str_eqb n (lit "SCORE") end
         then n <- outcome_id data ;; Ok (Some n) else Ok id) ;;
  let id := match id with None => lit "SCORE" | Some n => n end in
  DeclareOutcome s (mkDec id (de_baseType e) (de_default e) (de_min e) (de_max e)).
Fixpoint CloseDecVars (s : state) (l : list decvar_element) : result state :=
  match l with [] => Ok s | e :: l' => s <- CloseDecVar s e ;; CloseDecVars s l' end.

(** imsqtiv1.py 3141-3149 ResProcessing, with its outcomes and conditions *)
Record resprocessing := mkRes { rp_decvars : list decvar_element; rp_conditions : list respcondition }.
Definition CloseResProcessing (s : state) (r : resprocessing) : result state :=
  let s := ResetResprocessing s in
  s <- CloseDecVars s (rp_decvars r) ;;
  '(s, rs) <- CloseRespConditions s (rp_conditions r) true (InRules 0) [] ;;
  Ok (set_rules s rs).
Fixpoint CloseResProcessings (s : state) (l : list resprocessing) : result state :=
  match l with [] => Ok s | r :: l' => s <- CloseResProcessing s r ;; CloseResProcessings s l' end.

(** ** Responses *)
(** 2265-2308 ResponseThing.CloseObject; [split] is the number of response labels a
    fill-in-the-blank with several of them has (2789-2805), 0 for all others *)
Record response := mkResponse {
  r_ident : str; r_cardinality : str; r_baseType : str; r_default : option str; r_split : nat }.
(** 2261-2263 GetIndexedIdentifier *)
Definition indexed (id : str) (i : nat) : str := id ++ lit "_INDEX_" ++ pystr (Z.of_nat i).
Fixpoint declare_indexed (s : state) (id baseType : str) (i k : nat) : result (state * list str) :=
  match k with
  | O => Ok (s, [])
  | S k' =>
      '(s, n) <- DeclareResponse s (indexed id (S i)) (lit "single") baseType None ;;
      '(s, ns) <- declare_indexed s id baseType (S i) k' ;;
      Ok (s, n :: ns)
  end.
Definition CloseResponse (s : state) (r : response) : result state :=
  id <- ReadIdentifier (r_ident r) RESPONSE_PREFIX ;;
  match r_split r with
  | O => '(s, _) <- DeclareResponse s id (r_cardinality r) (r_baseType r) (r_default r) ;; Ok s
  | k =>
      '(s, ns) <- declare_indexed s id (r_baseType r) 0 k ;;
      '(s, n) <- DeclareFakeResponse s id (r_cardinality r) (r_baseType r) ;;
      Ok (add_rule s (SetOutcomeValue n
            (MultiOperator (if str_eqb (r_cardinality r) (lit "ordered") then lit "ordered" else lit "multiple")
               (map VariableOperator ns))))
  end.
Fixpoint CloseResponses (s : state) (l : list response) : result state :=
  match l with [] => Ok s | r :: l' => s <- CloseResponse s r ;; CloseResponses s l' end.

(** ** Bounds: imsqtiv1.py 741-775.  A bound of 0 is false.  str() of a float is a parameter,
    int() of one rounds towards zero. *)
Variable str_float : Qc -> str.
Definition int_of (q : Qc) : Z := Z.quot (Qnum q) (Zpos (Qden q)).
Definition bound_rule (d : declaration) (v : decvar) (op : string) (b : option Qc) : list rule :=
  match b with
  | None => []
  | Some q =>
      if Qc_eq_bool q 0 then []
      else
        let var := VariableOperator (decl_identifier d) in
        let val := if str_eqb (dv_baseType v) (lit "integer")
                   then BaseValueOperator (lit "integer") (pystr (int_of q))
                   else BaseValueOperator (lit "float") (str_float q) in
        [ResponseCondition (Some (BinaryOperator (lit op) var val), [SetOutcomeValue (decl_identifier d) val]) [] None]
  end.
Definition outcome_bounds (s : state) (n : str) : list rule :=
  match dget n (variables s) with
  | Some (Outcome d (Some v)) => bound_rule d v "lt" (dv_min v) ++ bound_rule d v "gt" (dv_max v)
  | _ => []
  end.
Definition CloseBounds (s : state) : state :=
  set_rules s (match rules s with Some l => l | None => [] end ++
               flat_map (fun o => outcome_bounds s (snd o)) (outcomes s)).

(** The item: responses, response processing, bounds *)
Definition ConvertItem (rs : list response) (ps : list resprocessing) : result state :=
  s <- CloseResponses new_item rs ;;
  s <- CloseResProcessings s ps ;;
  Ok (CloseBounds s).
End Convert.
