(** Model of pyslet/pyslet/qtiv2/processing.py (response and template processing) and of
    pyslet/pyslet/qtiv2/variables.py 1008-1049 and 1615-1931 (item sessions).

    Simplifications.
    - RenderHTML, called at the end of BeginAttempt, SaveSession and SubmitSession, is left out:
      it reads the session and builds a document.
    - The classes Response... and Template... of processing.py have the same text up to names;
      one generic definition of the control structure, with the assignment rules as a parameter,
      models both.
    - The order in which a Python dictionary of form parameters is traversed is the order of the
      list. *)
From Coq Require Import QArith Qcanon.
From Verif Require Import Py Dec XmlUtils Xsd Imscp QtiValue QtiExpr.
Open Scope Z_scope.
Open Scope list_scope.

(** A method that changes the session and returns None or raises; what was changed before an
    exception stays changed. *)
Definition eff : Type := (state * option exn)%type.
Definition andthen (r : eff) (k : state -> eff) : eff :=
  match r with (st, None) => k st | (st, Some e) => (st, Some e) end.
Definition lift {A} (st : state) (r : result A) (k : A -> eff) : eff :=
  match r with Ok a => k a | Err e => (st, Some e) end.
Definition put (st : state) (n : str) (v : value) : state :=
  mkState (s_item st) (sset n v (s_map st)).
Definition remove (st : state) (n : str) : state := mkState (s_item st) (sdel n (s_map st)).
Fixpoint each {A} (f : A -> state -> eff) (l : list A) (st : state) : eff :=
  match l with [] => (st, None) | x :: l' => andthen (f x st) (each f l') end.

Section Proc.
Context {X : Ext}.

(** variables.py 1656-1683 SessionState.__setitem__ *)
Definition set_item (n : str) (w : value) (st : state) : eff :=
  lift st (get_var st n) (fun v =>
    if match card w with None => false | Some _ => negb (opt_eqb cardinality_eqb (card w) (card v)) end
    then (st, Some ValueError)
    else if match base w with None => false | Some _ => negb (opt_eqb baseType_eqb (base w) (base v)) end
    then (st, Some ValueError)
    else let (v', e) := set_value v (payload_of w) in (put st n v', e)).

(** processing.py 14-53, 56-62, 65-105, 107-172, 223-234 (response rules) and 236-281, 284-290,
    293-333, 336-401 and 526-536 (template rules): [Exit] is exitResponse or exitTemplate; the
    responseIf and responseElseIf parts of a condition are one list. *)
Inductive rule (A : Type) : Type :=
| Cond (parts : list (option expr * list (rule A))) (els : list (rule A))
| Act (a : A)
| Exit.
Arguments Cond {A} parts els.
Arguments Act {A} a.
Arguments Exit {A}.

(** How a rule ends: normally, with StopProcessing, with another exception *)
Inductive flow := FNext | FStop | FErr (e : exn).

(** 123-138 ResponseIf.Run, 352-367 TemplateIf.Run: the condition.  After the two checks a
    value that is not NULL is a boolean (type soundness, C43). *)
Definition condition (st : state) (c : option expr) : result bool :=
  match c with
  | None => Err ProcessingError
  | Some e =>
      v <- eval st e ;;
      _ <- CheckBaseTypes [base v; Some BBoolean] ;;
      _ <- CheckCardinalities [card v; Some CSingle] ;;
      if negb (non_null v) then Ok false
      else match bool_of v with Some b => Ok b | None => Err Unmodelled end
  end.

Section Rules.
Variable A : Type.
Variable act : A -> state -> eff.

(** ResponseCondition.Run 89-97, ResponseIf.Run 123-138, ResponseElse.Run 159-162,
    ExitResponse.Run 233-234 *)
Fixpoint run_rule (r : rule A) (st : state) {struct r} : state * flow :=
  let run_list := fix run_list (rs : list (rule A)) (st : state) : state * flow :=
    match rs with
    | [] => (st, FNext)
    | r :: rs' =>
        match run_rule r st with
        | (st', FNext) => run_list rs' st'
        | other => other
        end
    end in
  match r with
  | Exit => (st, FStop)
  | Act a => match act a st with (st', None) => (st', FNext) | (st', Some e) => (st', FErr e) end
  | Cond parts els =>
      (fix run_parts (ps : list (option expr * list (rule A))) : state * flow :=
         match ps with
         | [] => run_list els st
         | (c, rs) :: ps' =>
             match condition st c with
             | Err e => (st, FErr e)
             | Ok true => run_list rs st
             | Ok false => run_parts ps'
             end
         end) parts
  end.

Fixpoint run_rules (rs : list (rule A)) (st : state) : state * flow :=
  match rs with
  | [] => (st, FNext)
  | r :: rs' =>
      match run_rule r st with
      | (st', FNext) => run_rules rs' st'
      | other => other
      end
  end.

(** 41-53 ResponseProcessing.Run, 269-281 TemplateProcessing.Run; no rule returns a true value *)
Definition processing (rs : list (rule A)) (st : state) : eff :=
  match run_rules rs st with
  | (st', FErr e) => (st', Some e)
  | (st', _) => (st', None)
  end.
End Rules.

(** 175-216 SetOutcomeValue.Run *)
Record setOutcome := SetOutcome { so_id : str; so_expr : option expr }.
Definition run_set_outcome (a : setOutcome) (st : state) : eff :=
  match so_expr a with
  | None => (st, Some ProcessingError)
  | Some e =>
      lift st (eval st e) (fun v =>
      lift st (IsOutcome st (so_id a)) (fun b =>
        if b then set_item (so_id a) v st else (st, Some ProcessingError)))
  end.
Definition responseRule := rule setOutcome.
Definition ResponseProcessing : list responseRule -> state -> eff := processing setOutcome run_set_outcome.

(** 404-442 SetTemplateValue, 445-484 SetCorrectResponse, 487-523 SetDefaultValue *)
Inductive templateAction :=
| SetTemplate (id : str) (e : option expr)
| SetCorrect (id : str) (e : option expr)
| SetDefault (id : str) (e : option expr).
Definition run_template_action (a : templateAction) (st : state) : eff :=
  match a with
  | SetTemplate _ None | SetCorrect _ None | SetDefault _ None => (st, Some ProcessingError)
  | SetTemplate id (Some e) =>
      lift st (eval st e) (fun v =>
      lift st (IsTemplate st id) (fun b =>
        if b then set_item id v st else (st, Some ProcessingError)))
  | SetCorrect id (Some e) =>
      lift st (eval st e) (fun v =>
      lift st (GetDeclaration st id) (fun d =>
        if is_response d then set_item (CORRECT id) v st else (st, Some ProcessingError)))
  | SetDefault id (Some e) =>
      lift st (eval st e) (fun v =>
      lift st (GetDeclaration st id) (fun d =>
        if is_response d || is_outcome d then set_item (DEFAULT id) v st
        else (st, Some ProcessingError)))
  end.
Definition templateRule := rule templateAction.
Definition TemplateProcessing : list templateRule -> state -> eff :=
  processing templateAction run_template_action.

(** variables.py 1022-1041 GetDefinedValue; GetValue() of a value element is its text *)
Fixpoint defined_record (m : option (list (str * (baseType * atom)))) (l : list valueElement)
  : result (option (list (str * (baseType * atom)))) :=
  match l with
  | [] => Ok m
  | x :: l' =>
      v <- new_single (ve_base x) (Some (RText (ve_text x))) ;;
      m' <- record_set (ve_field x) v m ;; defined_record m' l'
  end.
Definition GetDefinedValue (d : declaration) (dv : option (list valueElement)) : result value :=
  match dv with
  | Some l =>
      match d_card d with
      | Some CSingle =>
          match l with
          | [] => Err IndexError
          | x :: _ => new_single (d_base d) (Some (RText (ve_text x)))
          end
      | c =>
          w <- new_value c (d_base d) ;;
          match w with
          | VRecord m => m' <- defined_record m l ;; Ok (VRecord m')
          | _ => finish (set_value w (PList (map (fun x => Some (RText (ve_text x))) l)))
          end
      end
  | None => new_value (d_card d) (d_base d)
  end.
(** 1043-1047, 1222-1226 *)
Definition GetDefaultValue (d : declaration) : result value := GetDefinedValue d (d_default d).
Definition GetCorrectValue (d : declaration) : result value :=
  GetDefinedValue d (match d_kind d with KResponse c _ _ => c | _ => None end).

Definition numAttempts := lit "numAttempts".
Definition duration := lit "duration".
Definition completionStatus := lit "completionStatus".
Definition SAVED (id : str) : str := id ++ lit ".SAVED".

(** 1710-1730 ItemSessionState.__init__ *)
Fixpoint init_templates (l : list declaration) (m : list (str * value)) : result (list (str * value)) :=
  match l with
  | [] => Ok m
  | d :: l' => v <- GetDefaultValue d ;; init_templates l' (sset (d_id d) v m)
  end.
Fixpoint init_responses (l : list declaration) (m : list (str * value)) : result (list (str * value)) :=
  match l with
  | [] => Ok m
  | d :: l' =>
      c <- GetCorrectValue d ;;
      v <- GetDefaultValue d ;;
      w <- new_value (d_card d) (d_base d) ;;
      init_responses l' (sset (d_id d) w (sset (DEFAULT (d_id d)) v (sset (CORRECT (d_id d)) c m)))
  end.
Fixpoint init_outcomes (l : list declaration) (m : list (str * value)) : result (list (str * value)) :=
  match l with
  | [] => Ok m
  | d :: l' =>
      v <- GetDefaultValue d ;;
      w <- new_value (d_card d) (d_base d) ;;
      init_outcomes l' (sset (d_id d) w (sset (DEFAULT (d_id d)) v m))
  end.
Definition ItemSessionState (i : item) : result state :=
  m <- init_templates (i_templates i) [] ;;
  m <- init_responses (i_responses i)
         (sset completionStatus (VSingle (Some BIdentifier) None)
         (sset duration (VSingle (Some BDuration) None)
         (sset numAttempts (VSingle (Some BInteger) None) m))) ;;
  m <- init_outcomes (i_outcomes i) m ;;
  Ok (mkState i m).

(** 1911-1919 SetOutcomeDefaults *)
Definition outcome_default (d : declaration) (st : state) : eff :=
  lift st (get_var st (DEFAULT (d_id d))) (fun dv =>
  lift st (CopyValue dv) (fun v =>
    let v' := match v with
              | VSingle (Some BInteger) None => VSingle (Some BInteger) (Some (AInt 0))
              | VSingle (Some BFloat) None => VSingle (Some BFloat) (Some (AFloat q0))
              | _ => v
              end in
    (put st (d_id d) v', None))).
Definition SetOutcomeDefaults (st : state) : eff := each outcome_default (i_outcomes (s_item st)) st.

(** 1732-1744 SelectClone *)
Definition SelectClone (tp : list templateRule) (st : state) : eff := TemplateProcessing tp st.

(** self.map[n].value=x for a built-in variable *)
Definition poke (n : str) (a : atom) (st : state) : eff :=
  lift st (get_var st n) (fun v =>
    match v with
    | VSingle bt _ => (put st n (VSingle bt (Some a)), None)
    | _ => (st, Some Unmodelled)
    end).
(** 1746-1763 BeginSession *)
Definition BeginSession (st : state) : eff :=
  andthen (poke completionStatus (AIdent (lit "not_attempted")) st) (fun st =>
  andthen (SetOutcomeDefaults st) (fun st =>
  andthen (poke numAttempts (AInt 0) st) (fun st =>
  poke duration (AFloat q0) st))).

(** 1765-1778 BeginAttempt *)
Definition response_default (d : declaration) (st : state) : eff :=
  lift st (get_var st (DEFAULT (d_id d))) (fun dv =>
  lift st (CopyValue dv) (fun v => (put st (d_id d) v, None))).
Definition BeginAttempt (st : state) : eff :=
  lift st (get_var st numAttempts) (fun v =>
    match v with
    | VSingle bt (Some (AInt n)) =>
        let (v', e) := set_value v (PRaw (RInt (n + 1))) in
        andthen (put st numAttempts v', e) (fun st =>
          if n + 1 =? 1 then
            andthen (each response_default (i_responses (s_item st)) st) (fun st =>
              lift st (new_single (Some BIdentifier) (Some (RText (lit "unknown")))) (fun u =>
                (put st completionStatus u, None)))
          else (st, None))
    | VSingle _ None => (st, Some TypeError)
    | _ => (st, Some Unmodelled)
    end).

(** The value of a form parameter: a string or a list of strings *)
Inductive pvalue := PvText (s : str) | PvList (l : list str).

(** 1798-1873 _SaveParameters: one parameter.  BadSessionParams is not defined in the module:
    raising it raises NameError.  BaseType.Identifier does not exist either (1840), so the
    dictionary of ordered parameters stays empty. *)
Definition store (n : str) (p : payload) (st : state) : eff :=
  lift st (get_var st n) (fun v => let (v', e) := set_value v p in (put st n v', e)).
Definition texts (l : list str) : payload := PList (map (fun s => Some (RText s)) l).
Definition starts_with_prefix (prefix p : str) : bool := str_eqb (firstn (length prefix) p) prefix.
Definition save_parameter (prefix : str) (param : str * pvalue) (st : state) : eff :=
  let (p, x) := param in
  if negb (starts_with_prefix prefix p) then (st, None)
  else
    let parts := split_on 46 (skipn (length prefix) p) in
    let name := hd [] parts in
    lift st (GetDeclaration st name) (fun od =>
      match od with
      | None => (st, Some NameError)
      | Some d =>
          if negb (is_response od) then (st, Some NameError)
          else
            andthen (match assoc (SAVED name) (s_map st) with
                     | Some _ => (st, None)
                     | None => lift st (new_value (d_card d) (d_base d)) (fun v =>
                                 (put st (SAVED name) v, None))
                     end) (fun st =>
              match d_card d with
              | Some CSingle =>
                  match x with
                  | PvText s => store (SAVED name) (PRaw (RText s)) st
                  | PvList _ => (st, Some NameError)
                  end
              | Some CMultiple =>
                  store (SAVED name) (texts (match x with PvText s => [s] | PvList l => l end)) st
              | Some COrdered =>
                  if Nat.eqb (length parts) 2 then (st, Some AttributeError) else (st, None)
              | _ => (st, Some NotImplementedError)
              end)
      end).
Definition SaveParameters (prefix : str) (ps : list (str * pvalue)) (st : state) : eff :=
  each (save_parameter prefix) ps st.

(** 1875-1883 EndAttempt *)
Definition EndAttempt (rp : list responseRule) (st : state) : eff :=
  andthen (if i_adaptive (s_item st) then (st, None) else SetOutcomeDefaults st)
          (ResponseProcessing rp).

(** 1780-1783 SaveSession, 1785-1796 SubmitSession *)
Definition SaveSession := SaveParameters.
Definition commit_saved (d : declaration) (st : state) : eff :=
  match assoc (SAVED (d_id d)) (s_map st) with
  | None => (st, None)
  | Some w =>
      andthen (store (d_id d) (payload_of w) st) (fun st => (remove st (SAVED (d_id d)), None))
  end.
Definition SubmitSession (prefix : str) (rp : list responseRule) (ps : list (str * pvalue))
    (st : state) : eff :=
  andthen (SaveParameters prefix ps st) (fun st =>
  andthen (each commit_saved (i_responses (s_item st)) st) (EndAttempt rp)).

(** processing.py 622-675 TemplateDefault.Run, with the value of its expression *)
Definition TemplateDefault_Run (id : str) (v : value) (st : state) : eff :=
  match GetDeclaration st id with
  | Err KeyError => (st, Some ProcessingError)
  | Err e => (st, Some e)
  | Ok d => if is_template d then set_item id v st else (st, Some ProcessingError)
  end.

(** The public operations of an item session *)
Inductive event :=
| EvSelectClone
| EvBeginSession
| EvBeginAttempt
| EvSave (ps : list (str * pvalue))
| EvSubmit (ps : list (str * pvalue))
| EvSet (n : str) (v : value)
| EvTemplateDefault (n : str) (v : value).
Record program := mkProgram {
  pr_template : list templateRule; pr_response : list responseRule; pr_prefix : str }.
Definition apply_event (p : program) (ev : event) (st : state) : eff :=
  match ev with
  | EvSelectClone => SelectClone (pr_template p) st
  | EvBeginSession => BeginSession st
  | EvBeginAttempt => BeginAttempt st
  | EvSave ps => SaveSession (pr_prefix p) ps st
  | EvSubmit ps => SubmitSession (pr_prefix p) (pr_response p) ps st
  | EvSet n v => set_item n v st
  | EvTemplateDefault n v => TemplateDefault_Run n v st
  end.
(** A caller that catches every exception and goes on *)
Fixpoint history (p : program) (evs : list event) (st : state) : state :=
  match evs with [] => st | ev :: evs' => history p evs' (fst (apply_event p ev st)) end.

End Proc.
Arguments Cond {A} parts els.
Arguments Act {A} a.
Arguments Exit {A}.
