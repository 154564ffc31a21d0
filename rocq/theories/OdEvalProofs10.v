(** Proofs about OdEval.v: dates, members, isof and cast *)
From Coq Require Import ZArith Reals QArith Qreals List Lia Lra Bool String Floats.SpecFloat.
From Flocq Require Import Core BinarySingleNaN.
From Verif Require Import Py Iso IsoSpec IsoProofs IsoProofs2 OdExpr OdEval OdEvalSpec OdEvalSpecF OdEvalTypes OdEvalFloat OdEvalFloat2 OdEvalFloat3 OdEvalProofs OdEvalProofs2 OdEvalProofs3 OdEvalProofs4 OdEvalProofs5 OdEvalProofs6 OdEvalProofs7 OdEvalProofs8 OdEvalProofs9.
Import ListNotations.
Open Scope Z_scope.
Open Scope list_scope.

Section G.
Variable lower_char upper_char : Z -> Z.
Variable space : Z -> bool.
Variable E : Type.
Variable property : E -> str -> option (field E).
Variable e_len : E -> Z.
Variable e_type : E -> str.
Variable e_set : E -> Z.
Variable e_key : E -> result (list (option pyv)).
Notation Ev := (Evaluate lower_char upper_char space E property e_len e_type e_set e_key).
Notation bm := (binary_method E e_set e_key).
Notation methods := (call_methods lower_char upper_char space E).
Notation meth := (method lower_char upper_char space E).
Notation call1 := (call1 lower_char upper_char space E property e_len e_type e_set e_key).

(** ** Dates *)
Lemma part_v name p ctx y m d h mi s : In name parts -> Ev p ctx = Ok (time_v (moment y m d h mi s)) -> valid_ymd y m d -> 0 <= h <= 24 -> 0 <= mi < 60 -> 0 <= s <= 60 ->
  exists n, part name y m d h mi s = Some n /\ Ev (call name [p]) ctx = Ok (int_v TInt32 n).
Proof.
  intros Hn Hp V Hh Hm Hs. unfold valid_ymd in V. assert (L : month_length (leap y) m <= 31) by (unfold month_length; repeat destruct (_ || _); repeat destruct (_ =? _); destruct (leap y); lia).
  assert (N : forall n, 0 <= n <= 10000 -> new_value E TInt32 (Some (PInt n)) = Ok (int_v TInt32 n)) by (intros n B; apply small_new; lia).
  assert (Y : y / 100 * 100 + y mod 100 = y) by (pose proof (Z.div_mod y 100); lia).
  destruct Hn as [<-|[<-|[<-|[<-|[<-|[<-|[]]]]]]]; eexists; (split; [reflexivity|]).
  - rewrite (call1 "year" p _ ctx eq_refl Hp). change (meth "year" [time_v (moment y m d h mi s)]) with (new_value E TInt32 (Some (PInt (y / 100 * 100 + y mod 100)))). rewrite Y. apply N. lia.
  - rewrite (call1 "month" p _ ctx eq_refl Hp). change (meth "month" [time_v (moment y m d h mi s)]) with (new_value E TInt32 (Some (PInt m))). apply N. lia.
  - rewrite (call1 "day" p _ ctx eq_refl Hp). change (meth "day" [time_v (moment y m d h mi s)]) with (new_value E TInt32 (Some (PInt d))). apply N. lia.
  - rewrite (call1 "hour" p _ ctx eq_refl Hp). change (meth "hour" [time_v (moment y m d h mi s)]) with (new_value E TInt32 (Some (PInt h))). apply N. lia.
  - rewrite (call1 "minute" p _ ctx eq_refl Hp). change (meth "minute" [time_v (moment y m d h mi s)]) with (new_value E TInt32 (Some (PInt mi))). apply N. lia.
  - rewrite (call1 "second" p _ ctx eq_refl Hp). change (meth "second" [time_v (moment y m d h mi s)]) with (new_value E TInt32 (Some (PInt s))). apply N. lia.
Qed.
(** two moments on the same clock *)
Lemma compare_moments o p q ctx a b i j : In o comparisons -> Ev p ctx = Ok (time_v a) -> Ev q ctx = Ok (time_v b) -> plain_time (p_time a) -> plain_time (p_time b) ->
  zone_of (p_time a) = None -> zone_of (p_time b) = None -> local a i -> local b j ->
  exists c, Ev (bin o p q) ctx = Ok (bool_v c) /\ (c = true <-> z_rel o i j).
Proof.
  intros Ho Hp Hq Pa Pb Za Zb (y & m & d & n & Da & Va & Ga & ->) (y' & m' & d' & n' & Db & Vb & Gb & ->).
  apply gregorian_iff in Ga as (_ & _ & <-). apply gregorian_iff in Gb as (_ & _ & <-).
  set (i := 86400 * absn y m d + seconds_of (p_time a)). set (j := 86400 * absn y' m' d' + seconds_of (p_time b)).
  assert (C : tp_cmp a b = Ok (sgn3 i j)).
  { unfold tp_cmp. rewrite (plain_precision _ Pa), (plain_precision _ Pb). change (precision_eqb PComplete PComplete) with true. cbn [negb].
    assert (ZA : GetZoneOffset (p_time a) = Ok None) by (rewrite zone_offset_ok; [rewrite Za; reflexivity|destruct Pa as (? & ? & ? & ? & ? & -> & _ & _ & _ & Z); exact Z]).
    assert (ZB : GetZoneOffset (p_time b) = Ok None) by (rewrite zone_offset_ok; [rewrite Zb; reflexivity|destruct Pb as (? & ? & ? & ? & ? & -> & _ & _ & _ & Z); exact Z]).
    rewrite ZA, ZB. cbn [bind oeqb negb]. rewrite Da, Db. unfold i, j. apply cmp_same_zone; try assumption. congruence. }
  assert (T : py_compare (Some (PX (XT a))) (Some (PX (XT b))) = Ok (Some (i ?= j))).
  { cbn [py_compare num_of]. unfold tp_compare. rewrite C. cbn [bind]. do 2 f_equal. unfold sgn3. destruct (Z.ltb_spec i j) as [L|L]; [symmetry; apply Z.compare_lt_iff; exact L|].
    destruct (Z.eqb_spec i j) as [Q|Q]; [symmetry; apply Z.compare_eq_iff; exact Q|symmetry; apply Z.compare_gt_iff; lia]. }
  destruct (compare_other e_set e_key o (mkV (Some TDateTime) (Some (PX (XT a)))) (mkV (Some TDateTime) (Some (PX (XT b)))) TDateTime (Some (i ?= j)) Ho eq_refl eq_refl T) as (f & Hf & Hv).
  exists (op_of o (Some (i ?= j))). split; [rewrite (bin_eval lower_char upper_char space E property e_len e_type e_set e_key o f p q _ _ ctx Hf Hp Hq); exact Hv|].
  apply op_of_sense; [exact Ho|apply tells_Z].
Qed.
(** Guids *)
Lemma compare_guids o p q ctx x y : In o comparisons -> Ev p ctx = Ok (DSimple E (mkV (Some TGuid) (Some (PX (XG x))))) -> Ev q ctx = Ok (DSimple E (mkV (Some TGuid) (Some (PX (XG y))))) ->
  exists c, Ev (bin o p q) ctx = Ok (bool_v c) /\ (c = true <-> z_rel o x y).
Proof.
  intros Ho Hp Hq. destruct (compare_other e_set e_key o (mkV (Some TGuid) (Some (PX (XG x)))) (mkV (Some TGuid) (Some (PX (XG y)))) TGuid (Some (x ?= y)) Ho eq_refl eq_refl eq_refl) as (f & Hf & Hv).
  exists (op_of o (Some (x ?= y))). split; [rewrite (bin_eval lower_char upper_char space E property e_len e_type e_set e_key o f p q _ _ ctx Hf Hp Hq); exact Hv|].
  apply op_of_sense; [exact Ho|apply tells_Z].
Qed.

(** ** Members *)
Lemma str_eqb_iff a b : str_eqb a b = true <-> a = b.
Proof. apply str_eqb_eq. Qed.
Lemma property_member d n d' : (forall e, d = DEntity E e -> e_len e <> 0) -> member E property d n d' -> EvaluateProperty E property e_len n (Some d) = Ok d'.
Proof.
  intros L M. destruct M as [e n d P|e n e' P|e n P|fs gs n d P].
  - unfold EvaluateProperty, truth. destruct (Z.eqb_spec (e_len e) 0) as [Z|_]; [destruct (L e eq_refl Z)|]. cbn [negb]. rewrite P. reflexivity.
  - unfold EvaluateProperty, truth. destruct (Z.eqb_spec (e_len e) 0) as [Z|_]; [destruct (L e eq_refl Z)|]. cbn [negb]. rewrite P. reflexivity.
  - unfold EvaluateProperty, truth. destruct (Z.eqb_spec (e_len e) 0) as [Z|_]; [destruct (L e eq_refl Z)|]. cbn [negb]. rewrite P. reflexivity.
  - unfold EvaluateProperty, truth. assert (F : find (fun p => str_eqb (fst p) n) (fs ++ (n, d) :: gs) = Some (n, d)).
    { induction fs as [|[a x] fs IH]; cbn [app find fst].
      - rewrite (proj2 (str_eqb_iff n n) eq_refl). reflexivity.
      - destruct (str_eqb a n) eqn:Q; [exfalso; apply str_eqb_iff in Q; apply (P (a, x)); [left; reflexivity|exact Q]|]. apply IH; [intros e Q'; discriminate Q'|]. intros p Hp. apply P. right. exact Hp. }
    rewrite F. reflexivity.
Qed.
Lemma path_v d n l d' : (forall e, e_len e <> 0) -> path E property d (n :: l) d' -> Ev (path_expr n l) (Some d) = Ok d'.
Proof.
  intros L. assert (K : forall l p x d', Ev p (Some d) = Ok x -> path E property x l d' -> Ev (fold_left (fun e m => bin OMember e (EProp m)) l p) (Some d) = Ok d').
  { clear n l d'. induction l as [|m l IH]; intros p x d' Hp P; [inversion P|]. cbn [fold_left].
    assert (ST : forall x', member E property x m x' -> Ev (bin OMember p (EProp m)) (Some d) = Ok x').
    { intros x' M. rewrite (member_eval lower_char upper_char space E property e_len e_type e_set e_key p (EProp m) x (Some d) Hp). cbn [Evaluate]. apply property_member; [intros; apply L|exact M]. }
    inversion P as [? ? ? M|? ? x' ? ? M P']; subst; [cbn [fold_left]; apply ST; exact M|]. apply (IH _ x'); [apply ST; exact M|exact P']. }
  intros P. unfold path_expr.
  assert (S1 : forall x', member E property d n x' -> Ev (EProp n) (Some d) = Ok x').
  { intros x' M. cbn [Evaluate]. apply property_member; [intros; apply L|exact M]. }
  inversion P as [? ? ? M|? ? x' ? ? M P']; subst; [cbn [fold_left]; apply S1; exact M|]. apply (K l _ x'); [apply S1; exact M|exact P'].
Qed.

(** ** isof and cast *)
Lemma lstrip_none s : Forall (fun c => space c = false) s -> lstrip space s = s.
Proof. destruct s as [|c s]; intros H; [reflexivity|]. inversion H as [|? ? Q _]; subst. cbn [lstrip]. rewrite Q. reflexivity. Qed.
Lemma strip_none s : Forall (fun c => space c = false) s -> strip space s = s.
Proof. intros H. unfold strip. rewrite (lstrip_none s H), lstrip_none, rev_involutive; [reflexivity|]. apply Forall_rev. exact H. Qed.
Hypothesis printable : forall c, 33 <= c <= 126 -> space c = false.
Lemma decode_name t : DecodeType space (edm_name t) = Ok t.
Proof.
  unfold DecodeType. rewrite strip_none.
  - destruct t; reflexivity.
  - assert (forallb (fun c => (33 <=? c) && (c <=? 126)) (edm_name t) = true) as K by (destruct t; reflexivity).
    apply Forall_forall. intros c Hc. apply (proj1 (forallb_forall _ _) K) in Hc. apply printable. lia.
Qed.
Lemma two_eval o p q x y ctx : Ev p ctx = Ok x -> Ev q ctx = Ok y -> (o = OIsof \/ o = OCast) ->
  Ev (bin o p q) ctx = (match o with OIsof => EvaluateIsOf space E e_len e_type | _ => EvaluateCast space E e_len e_type end) (Some x) y.
Proof. intros Hp Hq [-> | ->]; cbn [Evaluate bin]; rewrite Hp; cbn [bind]; rewrite Hq; reflexivity. Qed.
Lemma isof_v p ctx a u t : Ev p ctx = Ok (DSimple E (mkV (Some a) u)) ->
  exists b, Ev (bin OIsof p (type_text t)) ctx = Ok (bool_v b) /\ (b = true <-> u <> None /\ (a = t \/ wider a t)).
Proof.
  intros Hp. rewrite (two_eval OIsof p (type_text t) _ (str_v (edm_name t)) ctx Hp eq_refl (or_introl eq_refl)).
  unfold EvaluateIsOf, truth, str_v. cbn [v_val v_type type_name]. destruct u as [u|]; [|exists false; split; [reflexivity|intuition discriminate]].
  cbn [negb bind]. rewrite decode_name.
  destruct (PromoteTypes (Some t) (Some a)) as [[n|]|] eqn:P.
  - exists (type_eqb t n). split; [reflexivity|]. rewrite type_eqb_eq. apply promote_joins in P. split.
    + intros <-. split; [discriminate|]. apply (joins_r t a t P).
    + intros [_ W]. assert (J : joins t a t) by (unfold joins; destruct W as [->|W]; auto). apply promote_joins in J, P. congruence.
  - exists false. split; [reflexivity|]. split; [discriminate|]. intros [_ W]. assert (J : joins t a t) by (unfold joins; destruct W as [->|W]; auto). apply promote_joins in J. congruence.
  - exists false. split; [reflexivity|]. split; [discriminate|]. intros [_ W]. assert (J : joins t a t) by (unfold joins; destruct W as [->|W]; auto). apply promote_joins in J. congruence.
Qed.
Lemma cast_eval p ctx a u t : Ev p ctx = Ok (DSimple E (mkV (Some a) (Some u))) -> a = t \/ wider a t ->
  Ev (bin OCast p (type_text t)) ctx = new_value E t (Some u).
Proof.
  intros Hp W. rewrite (two_eval OCast p (type_text t) _ (str_v (edm_name t)) ctx Hp eq_refl (or_intror eq_refl)).
  unfold EvaluateCast, truth, str_v. cbn [v_val v_type type_name negb bind]. rewrite decode_name.
  assert (J : joins t a t) by (unfold joins; destruct W as [->|W]; auto). apply promote_joins in J. rewrite J. cbn [bind]. rewrite type_eqb_refl. reflexivity.
Qed.
Lemma cast_refused p ctx a u t : Ev p ctx = Ok (DSimple E (mkV (Some a) (Some u))) -> a <> t -> ~ wider a t ->
  Ev (bin OCast p (type_text t)) ctx = Err EvaluationError.
Proof.
  intros Hp N W. rewrite (two_eval OCast p (type_text t) _ (str_v (edm_name t)) ctx Hp eq_refl (or_intror eq_refl)).
  unfold EvaluateCast, truth, str_v. cbn [v_val v_type type_name negb bind]. rewrite decode_name.
  assert (D : forall x, joins t a x -> x <> t) by (intros x J ->; destruct (joins_r t a t J); auto).
  destruct (PromoteTypes (Some t) (Some a)) as [[n|]|e] eqn:P; cbn [bind].
  - apply promote_joins in P. destruct (type_eqb t n) eqn:Q; [|reflexivity]. apply type_eqb_eq in Q. exfalso. apply (D n P). congruence.
  - reflexivity.
  - assert (K : forall x, ~ joins t a x) by (intros x J; apply promote_joins in J; congruence). apply promote_fails in K. congruence.
Qed.
Lemma cast_null p ctx x t : Ev p ctx = Ok (null_v x) -> Ev (bin OCast p (type_text t)) ctx = Ok (null_v (Some t)).
Proof.
  intros Hp. rewrite (two_eval OCast p (type_text t) _ (str_v (edm_name t)) ctx Hp eq_refl (or_intror eq_refl)).
  unfold EvaluateCast, truth, str_v, null_v. cbn [v_val type_name negb bind]. rewrite decode_name. reflexivity.
Qed.
Lemma cast_exact p ctx x a t q : Ev p ctx = Ok x -> exact x a q -> a = t \/ wider a t -> integer_t t \/ t = TDecimal ->
  exists y q', Ev (bin OCast p (type_text t)) ctx = Ok y /\ exact y t q' /\ (q' == q)%Q.
Proof.
  intros Hp Hx W T. destruct Hx as [(n & -> & I & ->)|(d & -> & -> & K & ->)].
  - rewrite (cast_eval p ctx a (PInt n) t Hp W). destruct T as [T| ->].
    + pose proof (in_wider a t n I T W) as I'. exists (int_v t n), (inject_Z n). split; [apply new_int_in; exact I'|]. split; [left; eauto|reflexivity].
    + pose proof (dec_ok_int a n I) as O. exists (dec_v (dec_of_int n)), (dec_value (dec_of_int n)). split.
      * unfold new_value, set_value. destruct (set_dec_num (PInt n) (NI n) eq_refl ltac:(discriminate) (dec_of_int n) ltac:(right; eauto)) as [S _]. rewrite (S O). reflexivity.
      * split; [right; exists (dec_of_int n); auto|apply dec_of_int_value].
  - rewrite (cast_eval p ctx TDecimal (PX (XD d)) t Hp W). assert (TD : t = TDecimal).
    { destruct T as [T|T]; [|exact T]. destruct W as [W|W]; [congruence|]. exfalso. apply wider_idx in W as (i & j & Hi & Hj & L). unfold idx in *. destruct T as [->|[->|[->|[->| ->]]]]; try discriminate Hj; injection Hi as <-; injection Hj as <-; lia. }
    subst t. exists (dec_v d), (dec_value d). split; [apply new_dec_ok; exact K|]. split; [right; eauto|reflexivity].
Qed.
Lemma cast_double p ctx x a r : Ev p ctx = Ok x -> as_real x a r -> a = TDouble \/ wider a TDouble ->
  exists z, Ev (bin OCast p (type_text TDouble)) ctx = Ok (fl_v TDouble z) /\ valid z /\ finite z /\ real z = r.
Proof.
  intros Hp Hx W. destruct (as_double x a r Hx W) as ([ta [u|]] & f & -> & Ta & C & V & F & R).
  - cbn [v_type] in Ta. subst ta. rewrite (cast_eval p ctx a u TDouble Hp W). exists f. split; [|auto].
    unfold SimpleCast in C. cbn [v_type v_val] in C. destruct (type_eqb a TDouble) eqn:Q.
    + injection C as ->. apply new_double. exact V.
    + unfold new_value. destruct (set_value TDouble (Some u)) as [y|]; [|discriminate C]. cbn [bind simple_v] in *. injection C as ->. reflexivity.
  - cbn [v_type] in Ta. subst ta. unfold SimpleCast in C. cbn [v_type v_val] in C. destruct (type_eqb a TDouble); cbn in C; discriminate C.
Qed.
Lemma cast_single p ctx x a q : Ev p ctx = Ok x -> exact x a q -> wider a TSingle ->
  exists z, Ev (bin OCast p (type_text TSingle)) ctx = Ok (fl_v TSingle z) /\ valid z /\ finite z /\ real z = rnd (Q2R q).
Proof.
  intros Hp [(n & -> & I & ->)|(d & -> & -> & K & ->)] W.
  - rewrite (cast_eval p ctx a (PInt n) TSingle Hp (or_intror W)). pose proof (in_type_64 a n I) as B. destruct (of_int_rnd n B) as [F R].
    exists (fl_of_int n). split; [|split; [apply of_int_valid|split; [exact F|rewrite Q2R_inject; exact R]]].
    unfold new_value. cbn [set_value]. rewrite set_float_int; [reflexivity|exact single_max_big|exact B].
  - rewrite (cast_eval p ctx TDecimal (PX (XD d)) TSingle Hp (or_intror W)). exists (fl_of_dec d). split; [|apply of_dec_real; exact K].
    unfold new_value. cbn [set_value]. unfold set_float. cbn [num_of num_compare].
    assert (M : (inject_Z dec_max < inject_Z single_max)%Q) by (rewrite <- Zlt_Qlt; vm_compute; reflexivity). destruct K as [K1 K2]. fold dec_max in K1, K2.
    assert (C1 : dec_compare d (dec_of_int (- single_max)) = Gt) by (apply dec_compare_is; rewrite dec_of_int_value, inject_Z_opp; eapply Qlt_le_trans; [|exact K1]; apply Qopp_lt_compat; exact M).
    assert (C2 : dec_compare d (dec_of_int single_max) = Lt) by (apply dec_compare_is; rewrite dec_of_int_value; eapply Qle_lt_trans; [exact K2|exact M]).
    rewrite C1, C2. reflexivity.
Qed.
Lemma cast_same p ctx t u : Ev p ctx = Ok (DSimple E (mkV (Some t) (Some u))) -> of_type t u -> In t [TString; TBinary; TBoolean; TGuid] ->
  Ev (bin OCast p (type_text t)) ctx = Ok (DSimple E (mkV (Some t) (Some u))).
Proof.
  intros Hp T Ht. rewrite (cast_eval p ctx t u t Hp (or_introl eq_refl)).
  destruct Ht as [<-|[<-|[<-|[<-|[]]]]]; destruct u as [b|n|s|s|[f|d|tp|c|g]]; cbn in T; try discriminate T; try contradiction; try (destruct T; discriminate); try (destruct T as [_ [T|[T _]]]; discriminate T); reflexivity.
Qed.
(** entities *)
Lemma isof_entity p e ctx n : e_len e <> 0 -> Ev p ctx = Ok (str_v n) -> ctx = Some (DEntity E e) ->
  exists b, Ev (EOp false OIsof [Some p]) ctx = Ok (bool_v b) /\ (b = true <-> e_type e = n).
Proof.
  intros L Hp ->. exists (str_eqb (e_type e) n). split; [|apply str_eqb_iff]. cbn [Evaluate]. rewrite Hp. cbn [bind]. unfold EvaluateIsOf, truth. destruct (Z.eqb_spec (e_len e) 0) as [Q|_]; [contradiction|]. reflexivity.
Qed.
Lemma cast_entity p e ctx n : e_len e <> 0 -> Ev p ctx = Ok (str_v n) -> ctx = Some (DEntity E e) ->
  (e_type e = n -> Ev (EOp false OCast [Some p]) ctx = Ok (DEntity E e)) /\ (e_type e <> n -> Ev (EOp false OCast [Some p]) ctx = Err EvaluationError).
Proof.
  intros L Hp ->. cbn [Evaluate]. rewrite Hp. cbn [bind]. unfold EvaluateCast, truth, str_v. destruct (Z.eqb_spec (e_len e) 0) as [Q|_]; [contradiction|]. cbn [negb type_name bind]. split; intros H.
  - rewrite (proj2 (str_eqb_iff _ _) H). reflexivity.
  - destruct (str_eqb (e_type e) n) eqn:Q; [apply str_eqb_iff in Q; contradiction|reflexivity].
Qed.
End G.
