(** Properties of test sessions. *)
From Verif Require Import Py TestForm TestFormSpec TestSession TestSessionSpec TestSessionProofs
  TestSessionProofs2 TestSessionProofs3 TestSessionProofs4 TestSessionProofs5 TestSessionProofs6.
Open Scope Z_scope.

Section Props.
Variable V P : Type.
Variable form : list str.
Variable parts : str -> option (tpart V).
Variable start_item : nat -> V -> V * result unit.
Variable begin_attempt : nat -> V -> V * result unit.
Variable save_item : P -> nat -> V -> V * result unit.
Variable submit_item : P -> nat -> V -> V * result unit.
Variable outcome_defaults : V -> V.
Variable mkkey : Z -> str.

Notation step := (step V P form parts start_item begin_attempt save_item submit_item outcome_defaults mkkey).
Notation run := (run V P form parts start_item begin_attempt save_item submit_item outcome_defaults mkkey).
Notation start_session := (new_session V form mkkey).
Notation key := (s_key V).
Notation last := (s_t V).
Notation question := (s_q V).
Notation duration s k := (TestSessionSpec.duration (s_vars V s) k).
Notation accepted := (accepted step).
Notation intervals := (intervals step).

Hypothesis key_nonempty : forall t, mkkey t <> [].

(** ** C53: session keys *)

(** An event with another key changes nothing: the key has expired if it has been accepted
    before, otherwise it is a mismatch. *)
Theorem C53_rejected es t0 v0 e k :
  let s0 := start_session t0 v0 in
  let s := run es s0 in
  ev_key e = Some k -> k <> key s ->
  (In k (map fst (accepted es s0)) -> step e s = (s, Err SessionKeyExpired)) /\
  (~ In k (map fst (accepted es s0)) -> step e s = (s, Err SessionKeyMismatch)).
Proof.
  intros s0 s Hk Hne.
  destruct (run_keys V P form parts start_item begin_attempt save_item submit_item outcome_defaults mkkey key_nonempty es s0)
    as (_ & Hu & _); [reflexivity|]. fold s in Hu. cbn [s0 new_session EventUpdate] in Hu.
  change (s_used V s0) with (@nil (list Z)) in Hu. rewrite app_nil_r in Hu.
  rewrite (step_bad V P form parts start_item begin_attempt save_item submit_item outcome_defaults mkkey e s k Hk Hne).
  assert (Hin : str_in k (s_used V s) = true <-> In k (map fst (accepted es s0))).
  { rewrite str_in_In, Hu, <- in_rev. reflexivity. }
  destruct (str_in k (s_used V s)); split; intros H; try reflexivity; [tauto|].
  apply Hin in H. discriminate.
Qed.
Theorem C53_no_action e s : ev_key e = None -> step e s = (s, Err SessionActionMissing).
Proof. apply step_missing. Qed.
(** An event with the current key is accepted, and makes a new key from its time. *)
Theorem C53_accepted es t0 v0 e :
  let s := run es (start_session t0 v0) in
  ev_key e = Some (key s) ->
  key (fst (step e s)) = mkkey (ev_time e) /\ last (fst (step e s)) = ev_time e.
Proof.
  intros s He.
  destruct (run_keys V P form parts start_item begin_attempt save_item submit_item outcome_defaults mkkey key_nonempty es (start_session t0 v0))
    as (Hk & _); [reflexivity|]. fold s in Hk.
  assert (Hne : key s <> []) by (rewrite Hk; apply key_nonempty).
  destruct (step_good V P form parts start_item begin_attempt save_item submit_item outcome_defaults mkkey e s He Hne) as (A & _ & _ & B).
  auto.
Qed.
(** If the events have different times no key is accepted twice, and no accepted key is
    current again. *)
Theorem C53_once_partial es t0 v0 :
  let s0 := start_session t0 v0 in
  (forall t t', mkkey t = mkkey t' -> t = t') ->
  NoDup (t0 :: map snd (accepted es s0)) ->
  NoDup (map fst (accepted es s0)) /\ ~ In (key (run es s0)) (map fst (accepted es s0)).
Proof.
  intros s0 Hinj Hnd.
  destruct (run_keys V P form parts start_item begin_attempt save_item submit_item outcome_defaults mkkey key_nonempty es s0)
    as (_ & _ & H); [reflexivity|]. change (last s0) with t0 in H.
  assert (Hn : NoDup (map fst (accepted es s0) ++ [key (run es s0)])).
  { rewrite H. apply FinFun.Injective_map_NoDup; [intros x y; apply Hinj|exact Hnd]. }
  apply NoDup_remove in Hn. rewrite app_nil_r in Hn. exact Hn.
Qed.

(** ** C56: forward navigation *)

Hypothesis Hform : form_ok form parts.

Notation reach es t0 v0 := (run es (start_session t0 v0)).

Lemma reach_Inv es t0 v0 : Inv V form parts (reach es t0 v0).
Proof. apply Inv_run; [assumption..|]. apply Inv_new, key_nonempty. Qed.
Lemma reach_ahead es t0 v0 : ahead V form parts (reach es t0 v0).
Proof. apply run_ahead; [assumption..| |apply new_ahead]. apply Inv_new, key_nonempty. Qed.

(** Whatever happens the question is the same or a later one, or the test is finished; a
    finished test stays finished. *)
Theorem C56_forward es t0 v0 es' :
  not_before (question (reach es t0 v0)) (question (reach (es ++ es') t0 v0)).
Proof. rewrite run_app. apply run_moved; [assumption..|apply reach_Inv]. Qed.

(** A submission that succeeds moves to a later item, or finishes the test. *)
Theorem C56_submit es t0 v0 k t ps i s' :
  let s := reach es t0 v0 in
  question s = Some (S i) ->
  step (Handle P None (Some k) t ps) s = (s', Ok tt) ->
  question s' = None \/ exists j id, question s' = Some j /\ (S i < j)%nat /\ item_at form parts j id.
Proof.
  intros s Hq H. pose proof (reach_Inv es t0 v0 : Inv V form parts s) as HI.
  destruct (list_eq_dec Z.eq_dec k (key s)) as [->|Hne].
  2:{ rewrite (step_bad V P form parts start_item begin_attempt save_item submit_item outcome_defaults mkkey _ s k) in H
        by (try exact Hne; reflexivity). discriminate. }
  assert (Hfs : fst (step (Handle P None (Some (key s)) t ps) s) = s') by (rewrite H; reflexivity).
  cbn [TestSession.step HandleEvent] in H. unfold SubmitSession in H.
  pose proof HI as (Hl & Hk & _). rewrite EventUpdate_good in H by exact Hk.
  destruct (AddDuration_base V P form parts mkkey t s None (Some (key s)) ps Hform HI) as (s1 & E & Hb).
  rewrite E in H. unfold andthen at 1 in H. pose proof (base_length V P form parts _ _ _ HI Hb) as Hl1.
  apply base_q in Hb. rewrite Hq in Hb. rewrite Hb in H.
  destruct (question_modes V form parts (S i)) as [[[|] [|]]|]; try discriminate.
  2:{ destruct (on_item V (save_item ps) (S i) s1) as [s2 [u|e]]; discriminate. }
  pose proof (on_item_eff V (submit_item ps) (S i) s1) as [H1 H2].
  destruct (on_item V (submit_item ps) (S i) s1) as [s2 [u|e]]; [|discriminate]. cbn [andthen fst] in *.
  destruct (NextQuestion V form parts start_item s2) as [s3 [u3|e]] eqn:En; [|discriminate].
  assert (Hlast : question s' = question s3).
  { destruct (tail_eff V form parts begin_attempt s3) as [_ T]. cbn [andthen] in H. rewrite H in T. exact T. }
  assert (Hl2 : length (dur V (s_vars V s2)) = length form) by (unfold durs in H1, Hl1; congruence).
  pose proof (NextQuestion_spec V form parts start_item s2 s3 _ Hl2 En) as Hspec.
  rewrite H2, Hb in Hspec. destruct Hspec as [_ [Hn|(j & Hj & Hr & Hp & _)]].
  - left. congruence.
  - right. destruct Hp as (id & p & v1 & P1 & P2 & P3 & P4 & _). exists j, id. rewrite Hlast. split; [exact Hj|].
    split; [lia|]. split; [exact P1|]. split; [|exists p; auto].
    destruct id as [|c id]; [discriminate|]. cbn in *. injection P2 as P2. lia.
Qed.

(** The search for the next question ends. *)
Theorem C56_terminates iQ v : exists r, forall fuel, (length form - iQ < fuel)%nat ->
  next_loop V form parts start_item fuel iQ v = Some r.
Proof.
  assert (Hmono : forall f g i w r, next_loop V form parts start_item f i w = Some r -> (f <= g)%nat ->
    next_loop V form parts start_item g i w = Some r).
  { induction f as [|f IH]; intros g i w r H Hle; [discriminate|]. destruct g as [|g]; [lia|].
    cbn [next_loop] in *.
    repeat match goal with
    | |- context [match ?x with _ => _ end] =>
        lazymatch x with
        | next_loop _ _ _ _ _ _ _ => fail
        | _ => destruct x
        end
    end; try exact H; (eapply IH; [exact H|lia]). }
  destruct (next_loop V form parts start_item (S (length form - iQ)) iQ v) as [r|] eqn:E.
  - exists r. intros fuel Hf. eapply Hmono; [exact E|lia].
  - exfalso. revert E. apply next_loop_ends. lia.
Qed.

(** ** C57: durations *)

(** An accepted event, other than the beginning of the test, adds the elapsed time to the
    question, the parts that contain it and the test, and to nothing else: the items it
    starts have no time yet. *)
Theorem C57_event es t0 v0 a b t ps i :
  let s := reach es t0 v0 in
  let e := Handle P a b t ps in
  let s' := fst (step e s) in
  ev_key e = Some (key s) -> question s = Some (S i) ->
  forall k,
    (k = 0%nat \/ k = S i \/ contains form parts k (S i) ->
       duration s' k = Some (or_zero (duration s k) + (t - last s))) /\
    (~ (k = 0%nat \/ k = S i \/ contains form parts k (S i)) ->
       duration s' k = duration s k \/
       ((S i < k)%nat /\ (exists id, item_at form parts k id) /\
        or_zero (duration s k) = 0 /\ duration s' k = Some 0)).
Proof.
  intros s e s' He Hq k. pose proof (reach_Inv es t0 v0 : Inv V form parts s) as HI.
  pose proof (reach_ahead es t0 v0 : ahead V form parts s) as Ha.
  destruct (step_effect V P form parts start_item begin_attempt save_item submit_item outcome_defaults mkkey e s Hform HI He)
    as (s1 & [Hq1 Hb] & [_ Hr] & _). rewrite Hq in Hb. destruct Hb as [_ Hb]. destruct (Hb k) as [Hy Hn].
  fold s' in Hr. rewrite Hq1, Hq in Hr. cbn [from] in Hr.
  change (duration s' k) with (at_ (durs V s') k). change (duration s k) with (at_ (durs V s) k).
  split; intros H.
  - rewrite <- (Hy H). destruct (Hr k) as [E|(Hle & E & id & Hit)]; [exact E|]. exfalso.
    destruct H as [->|[->|Hc]]; [lia|lia|]. eapply item_not_container; eassumption.
  - destruct (Hr k) as [E|(Hle & E & id & Hit)]; [left; rewrite E; apply Hn, H|]. right.
    split; [lia|]. split; [exists id; exact Hit|]. split; [|exact E].
    unfold ahead in Ha. rewrite Hq in Ha. apply (Ha k id); [lia|exact Hit].
Qed.

(** The duration of an item is the time spent on it. *)
Theorem C57_item es t0 v0 k id : item_at form parts k id ->
  or_zero (duration (reach es t0 v0) k) = total (Nat.eqb k) (intervals es (start_session t0 v0)).
Proof.
  intros Hit. assert (Hk : (k <> 0)%nat) by (intros ->; eapply item_not_0; eassumption).
  pose proof (run_time V P form parts start_item begin_attempt save_item submit_item outcome_defaults mkkey key_nonempty Hform
    (Nat.eqb k) k es (start_session t0 v0) (Inv_new V form parts mkkey key_nonempty t0 v0) (new_ahead V form parts mkkey t0 v0) Hk
    (touches_item V P form parts start_item begin_attempt save_item submit_item k id Hit Hk)) as H.
  change (duration (reach es t0 v0) k) with (at_ (durs V (reach es t0 v0)) k). rewrite H.
  assert (E : or_zero (at_ (durs V (start_session t0 v0)) k) = 0).
  { apply (new_ahead V form parts mkkey t0 v0 k id); [lia|exact Hit]. }
  rewrite E. lia.
Qed.
(** The duration of a section or test part is the time spent on the questions in it. *)
Theorem C57_group es t0 v0 pre g body post :
  form = pre ++ g :: body ++ close g :: post -> is_group parts g ->
  nested (is_item parts) (is_group parts) body ->
  or_zero (duration (reach es t0 v0) (length pre)) =
  total (fun q => Nat.leb (S (length pre)) q && Nat.leb q (length pre + length body))
        (intervals es (start_session t0 v0)).
Proof.
  intros E Hg Hb.
  assert (Hk : (length pre <> 0)%nat).
  { intros H0. destruct pre; [|discriminate]. destruct Hform as (l & El & _). rewrite E in El. cbn in El. injection El as -> _.
    destruct Hg as [[] _]. }
  pose proof (run_time V P form parts start_item begin_attempt save_item submit_item outcome_defaults mkkey key_nonempty Hform
    _ (length pre) es (start_session t0 v0) (Inv_new V form parts mkkey key_nonempty t0 v0) (new_ahead V form parts mkkey t0 v0) Hk
    (touches_group V P form parts start_item begin_attempt save_item submit_item pre g body post E Hg Hb)) as H.
  change (duration (reach es t0 v0) (length pre)) with (at_ (durs V (reach es t0 v0)) (length pre)). rewrite H.
  assert (E0 : or_zero (at_ (durs V (start_session t0 v0)) (length pre)) = 0).
  { unfold at_, durs. cbn. destruct (nth_error (repeat None (length form)) (length pre)) as [d|] eqn:En; [|reflexivity].
    apply nth_error_In, repeat_spec in En. subst. reflexivity. }
  rewrite E0. lia.
Qed.
(** The duration of the test is the time spent on all questions since it was begun. *)
Theorem C57_test_partial es t0 v0 k tb es' :
  let s := reach es t0 v0 in
  let s1 := fst (step (Begin P k tb) s) in
  k = key s -> Forall handles es' ->
  or_zero (duration (run es' s1) 0) = total (fun _ => true) (intervals es' s1).
Proof.
  intros s s1 Hk Hh. pose proof (reach_Inv es t0 v0 : Inv V form parts s) as HI.
  pose proof (run_0 V P form parts start_item begin_attempt save_item submit_item outcome_defaults mkkey key_nonempty Hform
    es' s1 (Inv_step' V P form parts start_item begin_attempt save_item submit_item outcome_defaults mkkey key_nonempty Hform _ s HI) Hh) as H.
  change (duration (run es' s1) 0) with (at_ (durs V (run es' s1)) 0). rewrite H.
  unfold s1. rewrite begin_0 by assumption. reflexivity.
Qed.
(** While the test is in progress that is the time since it was begun. *)
Theorem C57_clock es t0 v0 k tb es' i j :
  let s := reach es t0 v0 in
  let s1 := fst (step (Begin P k tb) s) in
  let s' := run es' s1 in
  k = key s -> Forall handles es' -> question s1 = Some (S i) -> question s' = Some (S j) ->
  duration s' 0 = Some (last s' - tb).
Proof.
  intros s s1 s' Hk Hh Hq Hq'. pose proof (reach_Inv es t0 v0 : Inv V form parts s) as HI.
  assert (HI1 : Inv V form parts s1) by (apply Inv_step; assumption).
  pose proof (C57_test_partial es t0 v0 k tb es' Hk Hh) as H. fold s s1 s' in H.
  pose proof (total_time V P form parts start_item begin_attempt save_item submit_item outcome_defaults mkkey key_nonempty Hform
    es' s1 HI1 Hh (ex_intro _ i Hq) (ex_intro _ j Hq')) as HT. rewrite HT in H. clear HT.
  assert (HI' : Inv V form parts s') by (apply Inv_run; assumption).
  destruct HI' as (_ & _ & HI'). rewrite Hq' in HI'. destruct HI' as (_ & (x & Hx) & _).
  change (duration s' 0) with (at_ (durs V s') 0) in *. fold s' in H. rewrite Hx in *. cbn in H. rewrite H. f_equal. f_equal.
  unfold s1. rewrite step_t by assumption. 
  replace (accepts (Begin P k tb) s) with true; [reflexivity|]. symmetry. apply accepts_iff. cbn. congruence.
Qed.

(** ** C106: branch rules *)

Notation next_index := (BranchTarget V form parts).

Theorem C106_no_rule i p v : stands_for form parts i p -> obeys parts p -> no_rule p v ->
  next_index i v = Ok (S i).
Proof. intros; eapply branch_none; eassumption. Qed.
Theorem C106_exit_test i p v : stands_for form parts i p -> obeys parts p ->
  fires p v (lit "EXIT_TEST") -> next_index i v = Ok (length form).
Proof. intros; eapply branch_test; eassumption. Qed.
Theorem C106_exit_test_part i p v pre mid g post : reserved parts ->
  form = pre ++ mid ++ close g :: post -> length pre = S i -> is_part parts g ->
  Forall (fun id => is_item parts id \/ is_section parts id \/
                    exists s, id = close s /\ is_section parts s) mid ->
  stands_for form parts i p -> obeys parts p -> fires p v (lit "EXIT_TESTPART") -> ~ is_kpart p ->
  next_index i v = Ok (S i + length mid + 1)%nat.
Proof. intros; eapply exit_part; eassumption. Qed.
Theorem C106_exit_section_partial i p v pre mid g post : reserved parts ->
  form = pre ++ mid ++ close g :: post -> length pre = S i -> Forall (is_item parts) mid ->
  stands_for form parts i p -> obeys parts p -> fires p v (lit "EXIT_SECTION") -> ~ is_kpart p ->
  next_index i v = Ok (S i + length mid + 1)%nat.
Proof. intros; eapply exit_section; eassumption. Qed.
Theorem C106_go_to i p v t q pre mid post : reserved parts ->
  form = pre ++ mid ++ t :: post -> length pre = S i -> ~ In t mid ->
  stands_for form parts i p -> obeys parts p -> fires p v t -> parts t = Some q ->
  may_go parts p t ->
  next_index i v = Ok (S i + length mid)%nat.
Proof. intros; eapply go_to; eassumption. Qed.
Theorem C106_go_nowhere i p v t q : reserved parts ->
  ~ In t (skipn (S i) form) -> (i < length form)%nat ->
  stands_for form parts i p -> obeys parts p -> fires p v t -> parts t = Some q ->
  may_go parts p t ->
  next_index i v = Ok (length form).
Proof. intros; eapply go_nowhere; eassumption. Qed.

(** ** C107: pre-conditions *)

Lemma all_hold_true cs v : all_hold V cs v = Ok true -> Forall (fun c => c v = Ok true) cs.
Proof.
  induction cs as [|c cs IH]; cbn [all_hold]; [constructor|]. destruct (c v) as [[]|] eqn:E; cbn [bind]; try discriminate. auto.
Qed.
Lemma all_hold_false cs v : all_hold V cs v = Ok false -> Exists (fun c => c v = Ok false) cs.
Proof.
  induction cs as [|c cs IH]; cbn [all_hold]; [discriminate|]. destruct (c v) as [[]|] eqn:E; cbn [bind]; try discriminate; auto.
Qed.
(** The part at a place of the form, with all its pre-conditions true or one false *)
Definition allowed (j : nat) (v : vars V) : Prop :=
  exists id p, nth_error form j = Some id /\ parts id = Some p /\ Forall (fun c => c v = Ok true) (p_pre V p).
Definition refused (j : nat) (v : vars V) : Prop :=
  exists id p, nth_error form j = Some id /\ parts id = Some p /\ Exists (fun c => c v = Ok false) (p_pre V p).
Lemma holds_allowed j v : holds V form parts j v true -> allowed j v.
Proof. intros (id & p & H1 & H2 & H3). exists id, p. auto using all_hold_true. Qed.
Lemma holds_refused j v : holds V form parts j v false -> refused j v.
Proof. intros (id & p & H1 & H2 & H3). exists id, p. auto using all_hold_false. Qed.

(** A question that is presented satisfied its own pre-conditions when it was started. *)
Theorem C107_presented e es t0 v0 j :
  let s := reach es t0 v0 in
  question (fst (step e s)) = Some j -> question s <> Some j ->
  exists id p v w i, item_at form parts j id /\ parts id = Some p /\
    Forall (fun c => c v = Ok true) (p_pre V p) /\ start_item j (vv V v) = (w, Ok tt) /\
    modes V parts p = Ok (true, i).
Proof.
  intros s Hj Hne. pose proof (reach_Inv es t0 v0 : Inv V form parts s) as HI.
  destruct (accepts e s) eqn:Ea; [|rewrite not_accepted in Hj by exact Ea; congruence].
  apply accepts_iff in Ea.
  destruct (step_effect V P form parts start_item begin_attempt save_item submit_item outcome_defaults mkkey e s Hform HI Ea)
    as (s1 & Hb & _ & Hm). apply base_q in Hb.
  destruct Hm as [Hm|(i & Hi & [Hm|(j' & Hj' & _ & Hp & _)])]; [congruence|congruence|].
  assert (j' = j) by congruence. subst j'.
  destruct Hp as (id & p & v & w & A & B & C & D & (ind & M) & F). exists id, p, v, w, ind.
  split; [split; assumption|]. split; [exact C|]. split; [apply all_hold_true, D|auto].
Qed.

(** In a linear test whose sections and test parts have no rules of their own, the next
    question is the first item, from where the branch rules of the last one lead, whose
    pre-conditions are true. *)
Theorem C107_next_partial s i iQ s' : simple V parts ->
  question s = Some (S i) -> next_index (S i) (s_vars V s) = Ok iQ ->
  NextQuestion V form parts start_item s = (s', Ok tt) ->
  match question s' with
  | Some j => (exists id, item_at form parts j id) /\ allowed j (s_vars V s) /\
      forall k id, (iQ <= k < j)%nat -> item_at form parts k id -> refused k (s_vars V s)
  | None => forall k id, (iQ <= k)%nat -> item_at form parts k id -> refused k (s_vars V s)
  end.
Proof.
  intros Hs Hq Hb H. unfold NextQuestion in H. rewrite Hq, Hb in H.
  destruct (search V form parts start_item iQ (s_vars V s)) as [v r] eqn:E.
  destruct (simple_next V form parts start_item iQ (s_vars V s) v r Hform Hs E) as (A & B & C).
  destruct r as [q|e]; [|discriminate]. injection H as <-. cbn [s_q set_q].
  destruct q as [j|].
  - split; [apply B; reflexivity|]. split; [apply holds_allowed, C; reflexivity|].
    intros k id Hk Hi. eapply holds_refused, (A _ eq_refl); [lia|lia|exact Hi].
  - intros k id Hk Hi. eapply holds_refused, (A _ eq_refl k id Hk I Hi).
Qed.

End Props.

(** ** Concrete tests *)

Definition always : cond unit := fun _ => Ok true.
Definition never : cond unit := fun _ => Ok false.
Fixpoint lookup (l : list (str * tpart unit)) (id : str) : option (tpart unit) :=
  match l with
  | [] => None
  | (k, p) :: l' => if str_eqb k id then Some p else lookup l' id
  end.
Definition ok_item (i : nat) (v : unit) : unit * result unit := (v, Ok tt).
Definition stamp (t : Z) : str := [t].
Definition stepx form parts :=
  step unit unit form parts ok_item ok_item (fun _ => ok_item) (fun _ => ok_item) (fun v => v) stamp.
Definition runx form parts :=
  run unit unit form parts ok_item ok_item (fun _ => ok_item) (fun _ => ok_item) (fun v => v) stamp.
Notation newx form t := (new_session unit form stamp t tt).

Lemma stamp_nonempty t : stamp t <> [].
Proof. discriminate. Qed.
Lemma stamp_inj t t' : stamp t = stamp t' -> t = t'.
Proof. intros H. injection H as H. exact H. Qed.

(** A test part P with a section S of two items and another item; and branch rules. *)
Definition formA : list str :=
  [lit ""; lit "P"; lit "S"; lit "Q1"; lit "Q2"; lit "-S"; lit "Q3"; lit "-P"].
Definition pt k r : tpart unit := mkPart unit k (lit "P") [] r.
Definition partsA := lookup
  [(lit "P", mkPart unit (KPart true true) (lit "P") [] []); (lit "S", pt KSection []);
   (lit "Q1", pt KItem [(never, lit "EXIT_TEST"); (always, lit "EXIT_SECTION")]);
   (lit "Q2", mkPart unit KItem (lit "P") [never] []); (lit "Q3", pt KItem [])].

Lemma item_lookup parts id p : plain id -> parts id = Some p -> p_kind unit p = KItem -> is_item parts id.
Proof. intros. split; eauto. Qed.
Lemma group_lookup parts id p : plain id -> parts id = Some p -> p_kind unit p <> KItem -> is_group parts id.
Proof. intros. split; eauto. Qed.
Ltac item := eapply item_lookup; [discriminate|reflexivity|reflexivity].
Ltac group := eapply group_lookup; [discriminate|reflexivity|discriminate].

Lemma formA_ok : form_ok formA partsA.
Proof.
  exists (tl formA). split; [reflexivity|].
  apply (nested_group _ _ (lit "P") [lit "S"; lit "Q1"; lit "Q2"; lit "-S"; lit "Q3"] []); [group| |constructor].
  apply (nested_group _ _ (lit "S") [lit "Q1"; lit "Q2"] [lit "Q3"]); [group| |].
  - apply nested_item; [item|]. apply nested_item; [item|constructor].
  - apply nested_item; [item|constructor].
Qed.

Definition submit (k t : Z) : event unit := Handle unit None (Some [k]) t tt.
Definition save (k t : Z) : event unit := Handle unit (Some [k]) None t tt.
Definition begin (k t : Z) : event unit := Begin unit [k] t.

(** The session: begun at 10; saved at 13; an old key; submitted at 20; submitted at 26. *)
Definition histA : list (event unit) := [begin 1 10; save 10 13; submit 10 15; submit 13 20; submit 20 26].

Example C53_ex :
  accepted (stepx formA partsA) histA (newx formA 1) = [([1], 10); ([10], 13); ([13], 20); ([20], 26)] /\
  NoDup [1; 10; 13; 20; 26] /\
  snd (stepx formA partsA (submit 10 30) (runx formA partsA histA (newx formA 1))) = Err SessionKeyExpired /\
  snd (stepx formA partsA (submit 11 30) (runx formA partsA histA (newx formA 1))) = Err SessionKeyMismatch /\
  snd (stepx formA partsA (submit 26 30) (runx formA partsA histA (newx formA 1))) = Ok tt.
Proof.
  split; [reflexivity|]. split; [repeat constructor; cbn; lia|].
  split; [reflexivity|]. split; reflexivity.
Qed.

(** Two events at the same time: the key is accepted again. *)
Theorem C53_same_time_refuted :
  accepted (stepx formA partsA) [begin 1 10; save 10 10; save 10 12] (newx formA 1)
  = [([1], 10); ([10], 10); ([10], 12)].
Proof. reflexivity. Qed.

Example C56_ex : map (fun n => s_q unit (runx formA partsA (firstn n histA) (newx formA 1))) (seq 0 6)
  = [Some 0; Some 3; Some 3; Some 3; Some 6; None]%nat.
Proof. reflexivity. Qed.

Example C57_ex :
  intervals (stepx formA partsA) histA (newx formA 1) = [(3%nat, 3); (3%nat, 7); (6%nat, 6)] /\
  map (TestSessionSpec.duration (s_vars unit (runx formA partsA histA (newx formA 1)))) (seq 0 8)
  = [Some 16; Some 16; Some 10; Some 10; None; None; Some 6; None] /\
  contains formA partsA 2 3 /\ ~ contains formA partsA 2 6.
Proof.
  split; [reflexivity|]. split; [reflexivity|].
  assert (Hb : nested (is_item partsA) (is_group partsA) [lit "Q1"; lit "Q2"]).
  { apply nested_item; [item|]. apply nested_item; [item|constructor]. }
  pose proof (contains_range unit unit formA partsA ok_item ok_item (fun _ => ok_item) (fun _ => ok_item) [lit ""; lit "P"] (lit "S") [lit "Q1"; lit "Q2"] [lit "Q3"; lit "-P"]) as H.
  cbn [length] in H. split.
  - apply H; [reflexivity|group|exact Hb|lia].
  - intros C. apply H in C; [lia|reflexivity|group|exact Hb].
Qed.

(** BeginSession in the course of the test discards the time since the last event, and the
    duration of the test. *)
Theorem C57_begin_again_refuted :
  let es := [begin 1 10; save 10 13; begin 13 20] in
  let s := runx formA partsA es (newx formA 1) in
  s_t unit s = 20 /\ s_q unit s = Some 6%nat /\
  map (TestSessionSpec.duration (s_vars unit s)) [0; 1; 3]%nat = [Some 0; Some 3; Some 3].
Proof. split; [reflexivity|]. split; reflexivity. Qed.

Example C106_ex : reserved partsA /\
  (exists p, stands_for formA partsA 3 p /\ obeys partsA p /\ ~ is_kpart p /\
     fires p (mkVars unit tt []) (lit "EXIT_SECTION")) /\
  BranchTarget unit formA partsA 3 (mkVars unit tt []) = Ok 6%nat.
Proof.
  split; [repeat split|]. split; [|reflexivity].
  exists (pt KItem [(never, lit "EXIT_TEST"); (always, lit "EXIT_SECTION")]). split; [|split; [|split]].
  - exists (lit "Q1"). split; [reflexivity|]. split; [discriminate|left; reflexivity].
  - eexists _, true. split; reflexivity.
  - intros (l & i & H). discriminate.
  - exists [(never, lit "EXIT_TEST")], always, []. split; [reflexivity|]. split; [|reflexivity].
    repeat constructor.
Qed.

(** A section that follows in the same section: the rule leads into the rest of the section
    instead of out of it. *)
Definition formB : list str :=
  [lit ""; lit "P"; lit "S"; lit "Q1"; lit "T"; lit "Q2"; lit "-T"; lit "Q3"; lit "-S"; lit "-P"].
Definition partsB := lookup
  [(lit "P", mkPart unit (KPart true true) (lit "P") [] []); (lit "S", pt KSection []); (lit "T", pt KSection []);
   (lit "Q1", pt KItem [(always, lit "EXIT_SECTION")]); (lit "Q2", pt KItem []); (lit "Q3", pt KItem [])].
Theorem C106_exit_section_refuted : form_ok formB partsB /\ reserved partsB /\
  fires (pt KItem [(always, lit "EXIT_SECTION")]) (mkVars unit tt []) (lit "EXIT_SECTION") /\
  stands_for formB partsB 3 (pt KItem [(always, lit "EXIT_SECTION")]) /\
  contains formB partsB 2 7 /\
  s_q unit (runx formB partsB [begin 1 10] (newx formB 1)) = Some 3%nat /\
  s_q unit (runx formB partsB [begin 1 10; submit 10 20] (newx formB 1)) = Some 7%nat.
Proof.
  assert (Hb : nested (is_item partsB) (is_group partsB) [lit "Q1"; lit "T"; lit "Q2"; lit "-T"; lit "Q3"]).
  { apply nested_item; [item|].
    apply (nested_group _ _ (lit "T") [lit "Q2"] [lit "Q3"]); [group| |];
      (apply nested_item; [item|constructor]). }
  split.
  { exists (tl formB). split; [reflexivity|].
    apply (nested_group _ _ (lit "P") [lit "S"; lit "Q1"; lit "T"; lit "Q2"; lit "-T"; lit "Q3"; lit "-S"] []); [group| |constructor].
    apply (nested_group _ _ (lit "S") [lit "Q1"; lit "T"; lit "Q2"; lit "-T"; lit "Q3"] []); [group|exact Hb|constructor]. }
  split; [repeat split|]. split; [exists [], always, []; repeat constructor|].
  split; [exists (lit "Q1"); split; [reflexivity|]; split; [discriminate|left; reflexivity]|].
  split; [|split; reflexivity].
  exists [lit ""; lit "P"], (lit "S"), [lit "Q1"; lit "T"; lit "Q2"; lit "-T"; lit "Q3"], [lit "-P"].
  split; [reflexivity|]. split; [reflexivity|]. split; [group|]. split; [exact Hb|]. cbn. lia.
Qed.

Example C107_ex : simple unit partsA /\
  s_q unit (runx formA partsA [begin 1 10] (newx formA 1)) = Some 3%nat /\
  holds unit formA partsA 4 (mkVars unit tt []) false /\ holds unit formA partsA 6 (mkVars unit tt []) true.
Proof.
  split; [|split; [reflexivity|split; eexists _, _; repeat split; reflexivity]].
  intros id p. unfold partsA. cbn [lookup].
  repeat (destruct (str_eqb _ id); [intros H; injection H as <-; cbn; auto|]). discriminate.
Qed.

(** A section whose pre-condition fails: its items are presented all the same. *)
Definition partsC := lookup
  [(lit "P", mkPart unit (KPart true true) (lit "P") [] []); (lit "S", mkPart unit KSection (lit "P") [never] []);
   (lit "Q1", pt KItem []); (lit "Q2", pt KItem []); (lit "Q3", pt KItem [])].
Theorem C107_section_refuted :
  (exists p, partsC (lit "S") = Some p /\ all_hold unit (p_pre unit p) (mkVars unit tt []) = Ok false) /\
  contains formA partsC 2 3 /\
  s_q unit (runx formA partsC [begin 1 10] (newx formA 1)) = Some 3%nat.
Proof.
  split; [eexists; split; reflexivity|]. split; [|reflexivity].
  exists [lit ""; lit "P"], (lit "S"), [lit "Q1"; lit "Q2"], [lit "Q3"; lit "-P"].
  split; [reflexivity|]. split; [reflexivity|]. split; [group|]. split; [|cbn; lia].
  apply nested_item; [item|]. apply nested_item; [item|constructor].
Qed.
(** In a part that is not linear no item is presented: the test ends at once. *)
Definition partsD := lookup
  [(lit "P", mkPart unit (KPart false true) (lit "P") [] []); (lit "S", pt KSection []);
   (lit "Q1", pt KItem []); (lit "Q2", pt KItem []); (lit "Q3", pt KItem [])].
Theorem C107_nonlinear_refuted :
  (exists p, partsD (lit "Q1") = Some p /\ all_hold unit (p_pre unit p) (mkVars unit tt []) = Ok true) /\
  s_q unit (runx formA partsD [begin 1 10] (newx formA 1)) = None.
Proof. split; [eexists; split; reflexivity|reflexivity]. Qed.

Print Assumptions C53_rejected.
Print Assumptions C53_no_action.
Print Assumptions C53_accepted.
Print Assumptions C53_once_partial.
Print Assumptions C56_forward.
Print Assumptions C56_submit.
Print Assumptions C56_terminates.
Print Assumptions C57_event.
Print Assumptions C57_item.
Print Assumptions C57_group.
Print Assumptions C57_test_partial.
Print Assumptions C57_clock.
Print Assumptions C106_no_rule.
Print Assumptions C106_exit_test.
Print Assumptions C106_exit_test_part.
Print Assumptions C106_exit_section_partial.
Print Assumptions C106_go_to.
Print Assumptions C106_go_nowhere.
Print Assumptions C107_presented.
Print Assumptions C107_next_partial.

Print Assumptions C106_exit_section_refuted.
Print Assumptions C107_nonlinear_refuted.
Print Assumptions C107_section_refuted.
Print Assumptions C53_same_time_refuted.
Print Assumptions C57_begin_again_refuted.
