(** Model of TestSessionState: session keys, navigation and durations of a test session.
    /repo/pyslet/pyslet/qtiv2/variables.py 1934-2282, and the methods of tests.py and
    processing.py that it calls. *)
From Verif Require Import Py TestForm.
Open Scope Z_scope.

(** Assignment to an index *)
Fixpoint put {A} (l : list A) (i : nat) (x : A) : list A :=
  match l, i with
  | [], _ => []
  | _ :: l', O => x :: l'
  | y :: l', S i' => y :: put l' i' x
  end.

Section Session.

(** The values of the variables other than the durations, which are not modelled further. *)
Variable V : Type.
(** The parameters of an event. *)
Variable P : Type.

(** The durations are those in namespace: one for each index of the form, None for NULL or
    no namespace.  Times are integers (microseconds); Python uses floats. *)
Record vars := mkVars { vv : V; dur : list (option Z) }.

(** ** Parts: tests.py 143-226, 273-375, 378-460

    [p_home] is the identifier of the test part that contains the part
    (FindParent(TestPart)); a condition is TestPartCondition.Evaluate, processing.py
    520-539. *)
Definition cond := vars -> result bool.
Inductive kind := KPart (linear individual : bool) | KSection | KItem.
Record tpart := mkPart {
  p_kind : kind; p_home : str; p_pre : list cond; p_rules : list (cond * str) }.

(** TestForm.components, AssessmentTest.parts *)
Variable form : list str.
Variable parts : str -> option tpart.
(** SetTemplateDefaults, SelectClone and BeginSession of an item session, but for the
    duration (set to 0.0, variables.py 1762); BeginAttempt, SaveSession and SubmitSession
    of an item session, which leave durations alone; SetOutcomeDefaults of the test. *)
Variable start_item : nat -> V -> V * result unit.
Variable begin_attempt : nat -> V -> V * result unit.
Variable save_item : P -> nat -> V -> V * result unit.
Variable submit_item : P -> nat -> V -> V * result unit.
Variable outcome_defaults : V -> V.
(** The hexadecimal digest of the salt and the time with six decimals: variables.py
    2010-2012 *)
Variable mkkey : Z -> str.

(** AssessmentTest.GetPart: tests.py 81-84 *)
Definition GetPart (id : str) : result tpart :=
  match parts id with Some p => Ok p | None => Err KeyError end.
(** [x.FindParent(TestPart)]: the modes *)
Definition modes (p : tpart) : result (bool * bool) :=
  match parts (p_home p) with
  | Some (mkPart (KPart l i) _ _ _) => Ok (l, i)
  | _ => Err AttributeError
  end.
(** [id[0]==u"-"] *)
Definition is_close (id : str) : result bool :=
  match id with [] => Err IndexError | c :: _ => Ok (c =? 45) end.

(** ** CheckPreConditions: tests.py 192-198, 319-328.  None counts as false. *)
Fixpoint all_hold (cs : list cond) (v : vars) : result bool :=
  match cs with
  | [] => Ok true
  | c :: cs' => b <- c v ;; if b then all_hold cs' v else Ok false
  end.
Definition CheckPreConditions (p : tpart) (v : vars) : result bool :=
  match p_kind p with
  | KPart _ _ => all_hold (p_pre p) v
  | _ => '(linear, _) <- modes p ;; if linear then all_hold (p_pre p) v else Ok false
  end.

(** ** GetBranchTarget: tests.py 200-220, 330-355 *)
Definition EXIT_TEST := lit "EXIT_TEST".
Definition EXIT_SECTION := lit "EXIT_SECTION".
Definition EXIT_TESTPART := lit "EXIT_TESTPART".

Definition check_target (p : tpart) (t : str) : result str :=
  match p_kind p with
  | KPart _ _ =>
      if str_eqb t EXIT_TEST then Ok t
      else match parts t with
           | None => Err ProcessingError
           | Some q => match p_kind q with KPart _ _ => Ok t | _ => Err ProcessingError end
           end
  | _ =>
      if str_eqb t EXIT_SECTION || str_eqb t EXIT_TESTPART || str_eqb t EXIT_TEST then Ok t
      else match parts t with
           | None => Err ProcessingError
           | Some q =>
               match p_kind q with
               | KPart _ _ => Err ProcessingError
               | _ => if str_eqb (p_home q) (p_home p) then Ok t else Err ProcessingError
               end
           end
  end.
Fixpoint first_rule (p : tpart) (rs : list (cond * str)) (v : vars) : result (option str) :=
  match rs with
  | [] => Ok None
  | (c, t) :: rs' =>
      b <- c v ;;
      if b then t <- check_target p t ;; Ok (Some t) else first_rule p rs' v
  end.
Definition GetBranchTarget (p : tpart) (v : vars) : result (option str) :=
  match p_kind p with
  | KPart _ _ => first_rule p (p_rules p) v
  | _ => '(linear, _) <- modes p ;; if linear then first_rule p (p_rules p) v else Ok None
  end.

(** ** _BranchTarget: variables.py 2032-2059 *)
Fixpoint seek (target : str) (rest : list str) (pos : nat) : result nat :=
  match rest with
  | [] => Ok pos
  | id :: rest' =>
      if str_eqb target id then Ok pos
      else
        m <- is_close id ;;
        if m then
          if str_eqb target EXIT_SECTION then Ok (S pos)
          else if str_eqb target EXIT_TESTPART then
            q <- GetPart (tl id) ;;
            match p_kind q with
            | KPart _ _ => Ok (S pos)
            | _ => seek target rest' (S pos)
            end
          else seek target rest' (S pos)
        else seek target rest' (S pos)
  end.
Definition BranchTarget (qPos : nat) (v : vars) : result nat :=
  id <- index form qPos ;;
  m <- is_close id ;;
  q <- GetPart (if m then tl id else id) ;;
  target <- GetBranchTarget q v ;;
  match target with
  | None => Ok (S qPos)
  | Some t => if str_eqb t EXIT_TEST then Ok (length form)
              else seek t (skipn (S qPos) form) (S qPos)
  end.

(** ** _NextQuestion: variables.py 2061-2121 *)

(** The start of an item session, with its duration: 2099-2104, 2112-2115 *)
Definition start (i : nat) (v : vars) : vars * result unit :=
  let '(w, r) := start_item i (vv v) in
  match r with
  | Ok _ => (mkVars w (put (dur v) i (Some 0)), Ok tt)
  | Err e => (mkVars w (dur v), Err e)
  end.

(** The items of a non-linear part: 2088-2105 *)
Fixpoint start_part (endId : str) (rest : list str) (j : nat) (v : vars) : vars * result unit :=
  match rest with
  | [] => (v, Err IndexError)
  | id :: rest' =>
      if str_eqb id endId then (v, Ok tt)
      else
        match is_close id with
        | Err e => (v, Err e)
        | Ok true => start_part endId rest' (S j) v
        | Ok false =>
            match GetPart id with
            | Err e => (v, Err e)
            | Ok q =>
                match p_kind q with
                | KItem =>
                    let '(v, r) := start j v in
                    match r with
                    | Ok _ => start_part endId rest' (S j) v
                    | Err e => (v, Err e)
                    end
                | _ => start_part endId rest' (S j) v
                end
            end
        end
  end.

(** The loop: 2070-2121.  None if the fuel runs out. *)
Fixpoint next_loop (fuel : nat) (iQ : nat) (v : vars) : option (vars * result (option nat)) :=
  match fuel with
  | O => None
  | S f =>
      match nth_error form iQ with
      | None => Some (v, Ok None)
      | Some id =>
          match is_close id with
          | Err e => Some (v, Err e)
          | Ok true =>
              match BranchTarget iQ v with
              | Err e => Some (v, Err e)
              | Ok i => next_loop f i v
              end
          | Ok false =>
              match GetPart id with
              | Err e => Some (v, Err e)
              | Ok p =>
                  match CheckPreConditions p v with
                  | Err e => Some (v, Err e)
                  | Ok false => next_loop f (S iQ) v
                  | Ok true =>
                      match p_kind p with
                      | KPart linear _ =>
                          if linear then next_loop f (S iQ) v
                          else
                            let '(v, r) := start_part (close id) (skipn (S iQ) form) (S iQ) v in
                            match r with
                            | Err e => Some (v, Err e)
                            | Ok _ => next_loop f (S iQ) v
                            end
                      | KSection => next_loop f (S iQ) v
                      | KItem =>
                          match modes p with
                          | Err e => Some (v, Err e)
                          | Ok (true, _) =>
                              let '(v, r) := start iQ v in
                              match r with
                              | Err e => Some (v, Err e)
                              | Ok _ => Some (v, Ok (Some iQ))
                              end
                          | Ok (false, _) => Some (v, Ok (Some iQ))
                          end
                      end
                  end
              end
          end
      end
  end.

Definition search (iQ : nat) (v : vars) : vars * result (option nat) :=
  match next_loop (S (length form)) iQ v with
  | Some x => x
  | None => (v, Err OutOfFuel)
  end.

(** ** The session: variables.py 1943-1998

    [s_q] is cQuestion: Some 0 before the test begins, None when it is finished. *)
Record session := mkSession {
  s_key : str; s_prev : str; s_used : list str; s_t : Z; s_q : option nat; s_vars : vars }.

Definition set_vars (v : vars) (s : session) : session :=
  mkSession (s_key s) (s_prev s) (s_used s) (s_t s) (s_q s) v.
Definition set_q (q : option nat) (s : session) : session :=
  mkSession (s_key s) (s_prev s) (s_used s) (s_t s) q (s_vars s).

Definition NextQuestion (s : session) : session * result unit :=
  match s_q s with
  | None => (s, Ok tt)
  | Some i =>
      match (match i with O => Ok 1%nat | _ => BranchTarget i (s_vars s) end) with
      | Err e => (s, Err e)
      | Ok iQ =>
          let '(v, r) := search iQ (s_vars s) in
          match r with
          | Err e => (set_vars v s, Err e)
          | Ok q => (set_q q (set_vars v s), Ok tt)
          end
      end
  end.

Definition str_in (k : str) (l : list str) : bool := existsb (str_eqb k) l.

(** EventUpdate: variables.py 2000-2017.  The result is the time since the last event. *)
Definition EventUpdate (key : str) (now : Z) (s : session) : session * result Z :=
  if negb (str_eqb (s_key s) key) then
    (s, Err (if str_in key (s_used s) then SessionKeyExpired else SessionKeyMismatch))
  else
    match s_key s with
    | [] => (mkSession (mkkey now) (s_prev s) (s_used s) now (s_q s) (s_vars s), Ok 0)
    | k => (mkSession (mkkey now) k (k :: s_used s) now (s_q s) (s_vars s), Ok (now - s_t s))
    end.

(** The constructor: variables.py 1943-1998 *)
Definition new_session (now : Z) (v : V) : session :=
  fst (EventUpdate [] now
         (mkSession [] [] [] 0 (Some O) (mkVars v (repeat None (length form))))).

(** ** AddDuration: variables.py 2254-2282 *)
Definition add_at (i : nat) (dt : Z) (d : list (option Z)) : list (option Z) :=
  match nth_error d i with
  | Some (Some x) => put d i (Some (x + dt))
  | _ => put d i (Some dt)
  end.
(** [value+=dt] *)
Definition inc (i : nat) (dt : Z) (d : list (option Z)) : result (list (option Z)) :=
  match nth_error d i with
  | Some (Some x) => Ok (put d i (Some (x + dt)))
  | _ => Err TypeError
  end.
Fixpoint add_open (iQ : nat) (ignore : nat) (dt : Z) (d : list (option Z))
    : result (list (option Z)) :=
  match iQ with
  | O => Ok d
  | S i' =>
      id <- index form iQ ;;
      m <- is_close id ;;
      if m then add_open i' (S ignore) dt d
      else
        p <- GetPart id ;;
        match p_kind p with
        | KItem => add_open i' ignore dt d
        | _ => match ignore with
               | O => add_open i' O dt (add_at iQ dt d)
               | S n => add_open i' n dt d
               end
        end
  end.
(** If it fails the durations already changed are not kept in the model. *)
Definition AddDuration (dt : Z) (s : session) : session * result unit :=
  match s_q s with
  | None | Some O => (s, Ok tt)
  | Some (S i) =>
      match (d <- inc (S i) dt (dur (s_vars s)) ;;
             d <- add_open i O dt d ;;
             inc O dt d) with
      | Ok d => (set_vars (mkVars (vv (s_vars s)) d) s, Ok tt)
      | Err e => (s, Err e)
      end
  end.

(** ** Events *)

Definition on_item (f : nat -> V -> V * result unit) (i : nat) (s : session)
    : session * result unit :=
  let '(w, r) := f i (vv (s_vars s)) in (set_vars (mkVars w (dur (s_vars s))) s, r).

(** [e ;; k] with the state *)
Definition andthen (x : session * result unit) (k : session -> session * result unit)
    : session * result unit :=
  let '(s, r) := x in match r with Ok _ => k s | Err e => (s, Err e) end.

(** FindParent(TestPart) of the current question: variables.py 2178-2180, 2239-2241 *)
Definition question_modes (i : nat) : result (bool * bool) :=
  id <- index form i ;; p <- GetPart id ;; modes p.

(** AddHTMLNavigation, but for the HTML: variables.py 2225-2252 *)
Definition navigation (s : session) : session * result unit :=
  match s_q s with
  | None | Some O => (s, Ok tt)
  | Some i =>
      match question_modes i with
      | Err e => (s, Err e)
      | Ok (true, true) => (s, Ok tt)
      | Ok _ => (s, Err NotImplementedError)
      end
  end.
Definition attempt (s : session) : session * result unit :=
  match s_q s with
  | None | Some O => (s, Ok tt)
  | Some i => on_item begin_attempt i s
  end.

(** BeginSession: variables.py 2124-2144 *)
Definition BeginSession (key : str) (now : Z) (s : session) : session * result unit :=
  let '(s, r) := EventUpdate key now s in
  match r with
  | Err e => (s, Err e)
  | Ok _ =>
      let v := s_vars s in
      let s := set_vars (mkVars (outcome_defaults (vv v)) (put (dur v) O (Some 0))) s in
      andthen (NextQuestion s) (fun s => andthen (attempt s) navigation)
  end.

(** SaveSession: variables.py 2155-2167 *)
Definition SaveSession (key : str) (now : Z) (ps : P) (s : session) : session * result unit :=
  let '(s, r) := EventUpdate key now s in
  match r with
  | Err e => (s, Err e)
  | Ok dt =>
      andthen (AddDuration dt s) (fun s =>
      andthen (match s_q s with
               | None | Some O => (s, Ok tt)
               | Some i => on_item (save_item ps) i s
               end) navigation)
  end.

(** SubmitSession: variables.py 2169-2208 *)
Definition SubmitSession (key : str) (now : Z) (ps : P) (s : session) : session * result unit :=
  let '(s, r) := EventUpdate key now s in
  match r with
  | Err e => (s, Err e)
  | Ok dt =>
      andthen (AddDuration dt s) (fun s =>
      andthen (match s_q s with
               | None | Some O => (s, Ok tt)
               | Some i =>
                   match question_modes i with
                   | Err e => (s, Err e)
                   | Ok (true, true) => andthen (on_item (submit_item ps) i s) NextQuestion
                   | Ok (true, false) =>
                       andthen (on_item (save_item ps) i s) (fun s => (s, Err NotImplementedError))
                   | Ok (false, _) => (s, Err NotImplementedError)
                   end
               end) (fun s => andthen (attempt s) navigation))
  end.

(** HandleEvent: variables.py 2146-2153.  [save] and [submit] are the values of the
    parameters SAVE and SUBMIT. *)
Definition HandleEvent (save submit : option str) (now : Z) (ps : P) (s : session)
    : session * result unit :=
  match save, submit with
  | Some k, _ => SaveSession k now ps s
  | None, Some k => SubmitSession k now ps s
  | None, None => (s, Err SessionActionMissing)
  end.

Inductive event :=
| Begin (key : str) (now : Z)
| Handle (save submit : option str) (now : Z) (ps : P).
Definition step (e : event) (s : session) : session * result unit :=
  match e with
  | Begin k now => BeginSession k now s
  | Handle a b now ps => HandleEvent a b now ps s
  end.
Fixpoint run (es : list event) (s : session) : session :=
  match es with
  | [] => s
  | e :: es' => run es' (fst (step e s))
  end.

End Session.
