(** Specification vocabulary for response processing, template processing and item sessions:
    the variables of a session and their roles, and a relational semantics of rules. *)
From Coq Require Import QArith Qcanon.
From Verif Require Import Py Dec XmlUtils Xsd Imscp QtiValue QtiExpr QtiSpec QtiProc.
Open Scope Z_scope.
Open Scope list_scope.

(** The variables an item session has, by the role they play *)
Inductive role :=
| Template (d : declaration)
| Response (d : declaration)
| Outcome (d : declaration)
| Correct (d : declaration)         (* "R.CORRECT" *)
| Default (d : declaration)         (* "R.DEFAULT", "O.DEFAULT" *)
| Saved (d : declaration)           (* "R.SAVED", present between saving and submitting *)
| Attempts | Duration | Status.     (* the built-in variables *)

Definition variables (i : item) : list (str * role) :=
  map (fun d => (d_id d, Template d)) (i_templates i) ++
  [(lit "numAttempts", Attempts); (lit "duration", Duration); (lit "completionStatus", Status)] ++
  flat_map (fun d => [(d_id d, Response d); (d_id d ++ lit ".CORRECT", Correct d);
                      (d_id d ++ lit ".DEFAULT", Default d); (d_id d ++ lit ".SAVED", Saved d)])
           (i_responses i) ++
  flat_map (fun d => [(d_id d, Outcome d); (d_id d ++ lit ".DEFAULT", Default d)]) (i_outcomes i).

(** The three lists of declarations hold declarations of the right class *)
Definition well_sorted (i : item) : Prop :=
  (forall d, In d (i_templates i) -> d_kind d = KTemplate) /\
  (forall d, In d (i_outcomes i) -> d_kind d = KOutcome) /\
  (forall d, In d (i_responses i) -> exists c m a, d_kind d = KResponse c m a).
(** No two variables have the same name.  The library checks this for the declared
    identifiers, but an identifier may contain a full stop. *)
Definition distinct_names (i : item) : Prop := NoDup (map fst (variables i)).

(** The type a variable must have *)
Definition declared_type (d : declaration) : option cardinality * option baseType :=
  (d_card d, match d_card d with Some CRecord => None | _ => d_base d end).
Definition type_of (r : role) : option cardinality * option baseType :=
  match r with
  | Template d | Response d | Outcome d | Correct d | Default d | Saved d => declared_type d
  | Attempts => (Some CSingle, Some BInteger)
  | Duration => (Some CSingle, Some BDuration)
  | Status => (Some CSingle, Some BIdentifier)
  end.
Definition optional (r : role) : bool := match r with Saved _ => true | _ => false end.
(** Every variable is there and has its type *)
Definition well_typed (st : state) : Prop :=
  forall n r, In (n, r) (variables (s_item st)) ->
    match assoc n (s_map st) with
    | Some v => (card v, base v) = type_of r
    | None => optional r = true
    end.

(** The value of a variable *)
Definition same_value (st st' : state) (n : str) : Prop :=
  assoc n (s_map st') = assoc n (s_map st).

Section Semantics.
Context {X : Ext}.

Definition is_true (st : state) (c : option expr) : Prop :=
  exists e b, c = Some e /\ eval st e = Ok (VSingle b (Some (ABool true))) /\
    (b = None \/ b = Some BBoolean).
(** false or NULL *)
Definition not_true (st : state) (c : option expr) : Prop :=
  exists e v, c = Some e /\ eval st e = Ok v /\
    (base v = None \/ base v = Some BBoolean) /\ (card v = None \/ card v = Some CSingle) /\
    (non_null v = false \/ exists b, v = VSingle b (Some (ABool false))).

(** The rules a condition selects *)
Inductive selects {A} (st : state) (els : list (rule A))
  : list (option expr * list (rule A)) -> list (rule A) -> Prop :=
| sel_else : selects st els [] els
| sel_here c rs ps : is_true st c -> selects st els ((c, rs) :: ps) rs
| sel_later c rs ps rs' : not_true st c -> selects st els ps rs' -> selects st els ((c, rs) :: ps) rs'.

(** [runs perform st rs st' stopped]: processing the rules from [st] performs exactly the selected
    actions, in order, and leaves [st']; [stopped] says an exit rule ended it. *)
Inductive runs {A} (perform : A -> state -> state -> Prop)
  : state -> list (rule A) -> state -> bool -> Prop :=
| runs_end st : runs perform st [] st false
| runs_exit st rs : runs perform st (Exit :: rs) st true
| runs_act st st' st'' a rs b :
    perform a st st' -> runs perform st' rs st'' b -> runs perform st (Act a :: rs) st'' b
| runs_cond st st' st'' ps els body rs b :
    selects st els ps body -> runs perform st body st' false -> runs perform st' rs st'' b ->
    runs perform st (Cond ps els :: rs) st'' b
| runs_cond_exit st st' ps els body rs :
    selects st els ps body -> runs perform st body st' true ->
    runs perform st (Cond ps els :: rs) st' true.

(** What an assignment does to the variable it names: same type afterwards, and the same
    members as the value assigned, each once in a multiple container (a finding, see C87). *)
Definition assigned (st : state) (n : str) (v : value) (st' : state) : Prop :=
  exists old new, assoc n (s_map st) = Some old /\ assoc n (s_map st') = Some new /\
    card new = card old /\ base new = base old /\
    (card v = Some CSingle -> non_null v = true -> new = v) /\
    (card v = Some COrdered -> non_null v = true -> new = v) /\
    (card v = Some CRecord -> non_null v = true -> new = v) /\
    (forall a, In a (members new) <-> In a (members v)) /\
    (non_null v = false -> non_null new = false) /\
    s_item st' = s_item st /\ (forall m, m <> n -> same_value st st' m).
End Semantics.

(** A form parameter addresses the variable [id]: prefix, identifier, and perhaps a full stop
    and more. *)
Definition addresses (prefix id p : str) : Prop :=
  exists rest, p = prefix ++ id ++ rest /\ (rest = [] \/ exists r, rest = 46 :: r).
(** [x] is the value of the last parameter that addresses [id] *)
Definition last_for (prefix id : str) (ps : list (str * pvalue)) (x : pvalue) : Prop :=
  exists ps1 p ps2, ps = ps1 ++ (p, x) :: ps2 /\ addresses prefix id p /\
    forall q y, In (q, y) ps2 -> ~ addresses prefix id q.

Section Counting.
Context {X : Ext}.
(** Events that count attempts; the number they lead to, from [k]; a history in which those
    events raised nothing and nothing else assigned numAttempts *)
Definition counted (ev : event) : Prop := ev = EvBeginSession \/ ev = EvBeginAttempt.
Fixpoint attempts (k : Z) (evs : list event) : Z :=
  match evs with
  | [] => k
  | EvBeginSession :: evs' => attempts 0 evs'
  | EvBeginAttempt :: evs' => attempts (k + 1) evs'
  | _ :: evs' => attempts k evs'
  end.
Definition no_direct (ev : event) : Prop := match ev with EvSet n _ => n <> numAttempts | _ => True end.
Fixpoint returning (p : program) (evs : list event) (st : state) : Prop :=
  match evs with
  | [] => True
  | ev :: evs' => (counted ev -> snd (apply_event p ev st) = None) /\ returning p evs' (fst (apply_event p ev st))
  end.
End Counting.
