From Verif Require Import Py TestForm TestFormSpec TestSession TestSessionSpec TestSessionProofs
  TestSessionProofs2 TestSessionProofs3 TestSessionProofs4.
Open Scope Z_scope.

(** ** Time spent *)

Lemma total_app f l l' : total f (l ++ l') = total f l + total f l'.
Proof.
  unfold total. rewrite filter_app, map_app. induction (map snd _) as [|x m IH]; cbn [app fold_right]; [reflexivity|].
  rewrite IH. lia.
Qed.
Lemma total_nil f : total f [] = 0.
Proof. reflexivity. Qed.
Lemma total_one f q d : total f [(q, d)] = if f q then d else 0.
Proof. unfold total. cbn. destruct (f q); cbn; lia. Qed.

Section Proofs.
Variable V P : Type.
Variable form : list str.
Variable parts : str -> option (tpart V).
Variable start_item : nat -> V -> V * result unit.
Variable begin_attempt : nat -> V -> V * result unit.
Variable save_item : P -> nat -> V -> V * result unit.
Variable submit_item : P -> nat -> V -> V * result unit.
Variable outcome_defaults : V -> V.
Variable mkkey : Z -> str.

Notation step := (step V P form parts start_item begin_attempt save_item submit_item outcome_defaults mkkey).
Notation run := (run V P form parts start_item begin_attempt save_item submit_item outcome_defaults mkkey).
Notation s_key := (s_key V).
Notation s_t := (s_t V).
Notation s_q := (s_q V).
Notation s_vars := (s_vars V).
Notation session := (session V).
Notation durs := (durs V).
Notation Inv := (Inv V form parts).
Notation intervals := (intervals step).
Notation nest := (nested (is_item parts) (is_group parts)).

Hypothesis key_nonempty : forall t, mkkey t <> [].
Hypothesis Hform : form_ok form parts.

Lemma accepts_iff (e : event P) s : accepts e s = true <-> ev_key e = Some (s_key s).
Proof.
  unfold accepts. destruct (ev_key e) as [k|]; [|split; discriminate]. rewrite str_eqb_eq. split; congruence.
Qed.
Lemma not_accepted (e : event P) s : accepts e s = false -> fst (step e s) = s.
Proof. intros H. apply step_rejected. intros E. apply accepts_iff in E. congruence. Qed.

Lemma base_q (e : event P) s s1 : base V P form parts e s s1 -> s_q s1 = s_q s.
Proof. destruct e; intros H; apply H. Qed.

(** ** Positions *)

Lemma step_moved e s : Inv s -> not_before (s_q s) (s_q (fst (step e s))).
Proof.
  intros HI. destruct (accepts e s) eqn:Ea.
  2:{ rewrite not_accepted by exact Ea. destruct (s_q s); cbn; [lia|exact I]. }
  apply accepts_iff in Ea.
  destruct (step_effect V P form parts start_item begin_attempt save_item submit_item outcome_defaults mkkey e s Hform HI Ea)
    as (s1 & Hb & _ & Hm). apply base_q in Hb.
  destruct Hm as [Hm|(i & Hi & [Hm|(j & Hj & Hr & _)])].
  - rewrite Hm, Hb. destruct (s_q s); cbn; [lia|exact I].
  - rewrite Hm. destruct (s_q s); exact I.
  - rewrite Hj. rewrite <- Hb, Hi. cbn. lia.
Qed.
Lemma not_before_refl q : not_before q q.
Proof. destruct q; cbn; [lia|exact I]. Qed.
Lemma not_before_trans a b c : not_before a b -> not_before b c -> not_before a c.
Proof. destruct a, b, c; cbn; try lia; tauto. Qed.
Lemma Inv_step' e s : Inv s -> Inv (fst (step e s)).
Proof. apply Inv_step; assumption. Qed.
Lemma run_moved es s : Inv s -> not_before (s_q s) (s_q (run es s)).
Proof.
  revert s. induction es as [|e es IH]; intros s HI; cbn [TestSession.run]; [apply not_before_refl|].
  eapply not_before_trans; [apply step_moved, HI|]. apply IH, Inv_step', HI.
Qed.

(** ** Uniqueness of the closing identifier *)
Lemma closing_unique body body' g g' post post' : nest body -> nest body' ->
  body ++ close g :: post = body' ++ close g' :: post' -> body = body'.
Proof.
  assert (Hone : forall b x k, nest b -> nest (b ++ x) -> x <> [] -> hd [] x = close k -> False).
  { intros b x k Hb Hbx Hx Hh. destruct x as [|y x]; [congruence|]. cbn in Hh. subst y.
    pose proof (scan_prefix V parts _ Hbx (b ++ [close k]) x) as Hs. rewrite <- app_assoc in Hs. specialize (Hs eq_refl).
    rewrite rev_app_distr in Hs. cbn [rev app scan] in Hs. rewrite cls_close in Hs.
    rewrite scan_nested in Hs by exact Hb. discriminate. }
  intros Hb Hb' E. apply app_split in E as [(x & E1 & E2)|(x & E1 & E2)].
  - destruct x as [|y x]; [rewrite app_nil_r in E1; auto|]. exfalso. subst body. cbn in E2. injection E2 as <- _.
    eapply (Hone body' (close g' :: x)); [exact Hb'|exact Hb|discriminate|reflexivity].
  - destruct x as [|y x]; [rewrite app_nil_r in E1; auto|]. exfalso. subst body'. cbn in E2. injection E2 as <- _.
    eapply (Hone body (close g :: x)); [exact Hb|exact Hb'|discriminate|reflexivity].
Qed.
Lemma contains_range pre g body post q : form = pre ++ g :: body ++ close g :: post -> is_group parts g -> nest body ->
  contains form parts (length pre) q <-> (length pre < q <= length pre + length body)%nat.
Proof.
  intros Hf Hg Hb. split.
  - intros (pre' & g' & body' & post' & Hf' & Hl & Hg' & Hb' & Hr).
    rewrite Hf in Hf'. apply app_split in Hf'.
    assert (E : pre' = pre /\ g :: body ++ close g :: post = g' :: body' ++ close g' :: post').
    { destruct Hf' as [(x & E1 & E2)|(x & E1 & E2)].
      - subst pre. rewrite app_length in Hl. destruct x; [|cbn in Hl; lia]. rewrite app_nil_r. cbn in E2. auto.
      - subst pre'. rewrite app_length in Hl. destruct x; [|cbn in Hl; lia]. rewrite app_nil_r. cbn in E2. auto. }
    destruct E as [-> E]. injection E as <- E. apply closing_unique in E; [|assumption..]. subst body'. exact Hr.
  - intros Hr. exists pre, g, body, post. auto.
Qed.

(** ** Durations *)

Definition ahead (s : session) : Prop :=
  match s_q s with
  | Some i => forall k id, (i < k)%nat -> item_at form parts k id -> or_zero (at_ (durs s) k) = 0
  | None => True
  end.

Lemma item_not_0 id : ~ item_at form parts 0 id.
Proof.
  intros [H [Hp _]]. destruct Hform as (l & E & _). rewrite E in H. cbn in H. injection H as <-. exact Hp.
Qed.
Lemma item_not_container k id q : item_at form parts k id -> ~ contains form parts k q.
Proof.
  intros [H (_ & p & Hp & Hk)] (pre & g & body & post & E & Hl & (_ & p' & Hp' & Hk') & _).
  subst k. rewrite E, nth_error_app2, Nat.sub_diag in H by lia. cbn in H. injection H as <-. congruence.
Qed.

Lemma base_ahead (e : event P) s s1 : Inv s -> ahead s -> base V P form parts e s s1 -> ahead s1.
Proof.
  intros HI Ha Hb. pose proof (base_q _ _ _ Hb) as Hq. unfold ahead in *. rewrite Hq.
  destruct (s_q s) as [i|] eqn:Eq; [|exact I]. intros k id Hk Hit.
  rewrite <- (Ha k id Hk Hit). destruct e as [key now|a b now ps]; destruct Hb as [_ Hb].
  - rewrite Hb. unfold at_. rewrite put_other by lia. reflexivity.
  - rewrite Eq in Hb. destruct i as [|i]; [rewrite Hb; reflexivity|]. destruct Hb as [_ Hb].
    destruct (Hb k) as [_ Hn]. rewrite Hn; [reflexivity|].
    intros [->|[->|Hc]]; [lia|lia|]. eapply item_not_container; eassumption.
Qed.

Lemma step_ahead e s : Inv s -> ahead s -> ahead (fst (step e s)).
Proof.
  intros HI Ha. destruct (accepts e s) eqn:Ea.
  2:{ rewrite not_accepted by exact Ea. exact Ha. }
  apply accepts_iff in Ea.
  destruct (step_effect V P form parts start_item begin_attempt save_item submit_item outcome_defaults mkkey e s Hform HI Ea)
    as (s1 & Hb & [_ Hr] & Hm). apply (base_ahead _ _ _ HI Ha) in Hb. clear Ha.
  set (s' := fst (step e s)) in *. unfold ahead in *.
  assert (Hk0 : forall k id i, s_q s1 = Some i -> (i < k)%nat -> item_at form parts k id -> or_zero (at_ (durs s') k) = 0).
  { intros k id i Hq Hk Hit. rewrite Hq in Hb. destruct (Hr k) as [E|(_ & E & _)]; rewrite E; [|reflexivity]. eauto. }
  destruct Hm as [Hm|(i & Hi & [Hm|(j & Hj & Hjr & _)])].
  - rewrite Hm. destruct (s_q s1) as [i|]; [|exact I]. eauto.
  - rewrite Hm. exact I.
  - rewrite Hj. intros k id Hk Hit. apply (Hk0 k id i Hi); [lia|exact Hit].
Qed.
Lemma run_ahead es s : Inv s -> ahead s -> ahead (run es s).
Proof.
  revert s. induction es as [|e es IH]; intros s HI Ha; [exact Ha|]. cbn. apply IH; [apply Inv_step', HI|apply step_ahead; assumption].
Qed.
Lemma new_ahead t v : ahead (new_session V form mkkey t v).
Proof.
  unfold ahead. cbn. intros k id _ _. unfold at_, TestSessionProofs4.durs. cbn.
  destruct (nth_error (repeat None (length form)) k) as [d|] eqn:E; [|reflexivity].
  apply nth_error_In, repeat_spec in E. subst. reflexivity.
Qed.

(** One event. *)
Definition touches (f : nat -> bool) (k : nat) : Prop :=
  forall q id, item_at form parts (S q) id -> f (S q) = true <-> k = S q \/ contains form parts k (S q).

Lemma step_time f k e s : Inv s -> ahead s -> (k <> 0)%nat -> touches f k ->
  or_zero (at_ (durs (fst (step e s))) k) = or_zero (at_ (durs s) k) + total f (interval e s).
Proof.
  intros HI Ha Hk0 Hf. destruct (accepts e s) eqn:Ea.
  2:{ rewrite not_accepted by exact Ea. unfold interval. rewrite Ea.
      destruct e; [cbn; lia|]. destruct (s_q s) as [[|i]|]; cbn; lia. }
  pose proof Ea as Ek. apply accepts_iff in Ek.
  destruct (step_effect V P form parts start_item begin_attempt save_item submit_item outcome_defaults mkkey e s Hform HI Ek)
    as (s1 & Hb & [_ Hr] & _). pose proof (base_ahead _ _ _ HI Ha Hb) as Ha1.
  assert (E : or_zero (at_ (durs (fst (step e s))) k) = or_zero (at_ (durs s1) k)).
  { destruct (Hr k) as [E|(Hle & E & id & Hit)]; rewrite E; [reflexivity|]. unfold ahead in Ha1. unfold from in Hle.
    destruct (s_q s1) as [i|]; [rewrite (Ha1 k id); [reflexivity|lia|exact Hit]|].
    destruct Hit as [Hn _]. assert (k < length form)%nat by (apply nth_error_Some; congruence). lia. }
  rewrite E. clear E Hr Ha1. destruct e as [key now|a b now ps]; destruct Hb as [_ Hb].
  - rewrite Hb. unfold at_. rewrite put_other by lia. cbn. lia.
  - unfold interval. destruct HI as (_ & _ & HI). destruct (s_q s) as [[|i]|]; [rewrite Hb; cbn; lia| |rewrite Hb; cbn; lia].
    destruct HI as [[id Hid] _]. rewrite Ea, total_one. destruct Hb as [_ Hb]. destruct (Hb k) as [Hy Hn]. specialize (Hf i id Hid).
    destruct (f (S i)).
    + rewrite Hy; [cbn; lia|]. right. apply Hf. reflexivity.
    + rewrite Hn; [lia|]. intros [H|H]; [lia|]. apply Hf in H. discriminate.
Qed.
Lemma run_time f k es s : Inv s -> ahead s -> (k <> 0)%nat -> touches f k ->
  or_zero (at_ (durs (run es s)) k) = or_zero (at_ (durs s) k) + total f (intervals es s).
Proof.
  intros HI Ha Hk Hf. revert s HI Ha. induction es as [|e es IH]; intros s HI Ha;
    cbn [TestSession.run TestSessionSpec.intervals]; [cbn; lia|].
  rewrite total_app, IH; [|apply Inv_step', HI|apply step_ahead; assumption].
  rewrite (step_time f) by assumption. lia.
Qed.

Lemma touches_item k id : item_at form parts k id -> (k <> 0)%nat -> touches (Nat.eqb k) k.
Proof.
  intros H Hk q id' _. rewrite Nat.eqb_eq. split; [auto|]. intros [E|Hc]; [exact E|].
  exfalso. eapply item_not_container; eassumption.
Qed.
Lemma touches_group pre g body post : form = pre ++ g :: body ++ close g :: post -> is_group parts g -> nest body ->
  touches (fun q => Nat.leb (S (length pre)) q && Nat.leb q (length pre + length body)) (length pre).
Proof.
  intros E Hg Hb q id Hit. rewrite andb_true_iff, !Nat.leb_le. rewrite (contains_range pre g body post) by assumption.
  split; [intros H; right; lia|]. intros [H|H]; [|lia]. exfalso. rewrite <- H in Hit.
  eapply (item_not_container _ _ (S (length pre))); [exact Hit|]. apply (contains_range pre g body post); try assumption.
  destruct Hit as [Hn (_ & p & Hp & Hk)]. destruct Hg as (_ & p' & Hp' & Hk').
  rewrite E, nth_error_app2, Nat.sub_diag in Hn by lia. cbn in Hn. injection Hn as <-. congruence.
Qed.

(** ** The test *)

Lemma renewed_0 q d d' : renewed V form parts q d d' -> at_ d' 0 = at_ d 0.
Proof. intros [_ H]. destruct (H 0%nat) as [E|(_ & _ & id & Hit)]; [exact E|]. exfalso. eapply item_not_0, Hit. Qed.
Lemma form_pos : (0 < length form)%nat.
Proof. destruct Hform as (l & -> & _). cbn. lia. Qed.

Lemma begin_0 k now s : Inv s -> k = s_key s -> at_ (durs (fst (step (Begin P k now) s))) 0 = Some 0.
Proof.
  intros HI ->.
  destruct (step_effect V P form parts start_item begin_attempt save_item submit_item outcome_defaults mkkey (Begin P (s_key s) now) s Hform HI eq_refl)
    as (s1 & [_ Hb] & Hr & _). apply renewed_0 in Hr. rewrite Hr, Hb. unfold at_. rewrite put_same; [reflexivity|].
  destruct HI as [-> _]. apply form_pos.
Qed.
Lemma step_0 e s : Inv s -> handles e ->
  or_zero (at_ (durs (fst (step e s))) 0) = or_zero (at_ (durs s) 0) + total (fun _ => true) (interval e s).
Proof.
  intros HI Hh. destruct (accepts e s) eqn:Ea.
  2:{ rewrite not_accepted by exact Ea. unfold interval. rewrite Ea.
      destruct e; [cbn; lia|]. destruct (s_q s) as [[|i]|]; cbn; lia. }
  pose proof Ea as Ek. apply accepts_iff in Ek.
  destruct (step_effect V P form parts start_item begin_attempt save_item submit_item outcome_defaults mkkey e s Hform HI Ek)
    as (s1 & Hb & Hr & _). apply renewed_0 in Hr. rewrite Hr.
  destruct e as [|a b now ps]; [destruct Hh|]. destruct Hb as [_ Hb]. unfold interval. rewrite Ea.
  destruct (s_q s) as [[|i]|]; [rewrite Hb; cbn; lia| |rewrite Hb; cbn; lia].
  rewrite total_one. destruct Hb as [_ Hb]. destruct (Hb 0%nat) as [Hy _]. rewrite Hy by auto. reflexivity.
Qed.
Lemma run_0 es s : Inv s -> Forall handles es ->
  or_zero (at_ (durs (run es s)) 0) = or_zero (at_ (durs s) 0) + total (fun _ => true) (intervals es s).
Proof.
  revert s. induction es as [|e es IH]; intros s HI Hh; cbn [TestSession.run TestSessionSpec.intervals]; [cbn; lia|].
  apply Forall_cons_iff in Hh as [H1 H2]. rewrite total_app, IH; [|apply Inv_step', HI|exact H2].
  rewrite step_0 by assumption. lia.
Qed.

Lemma run_app es es' s : run (es ++ es') s = run es' (run es s).
Proof. revert s. induction es as [|e es IH]; intros s; [reflexivity|]. cbn. apply IH. Qed.
Lemma intervals_app es es' s : intervals (es ++ es') s = intervals es s ++ intervals es' (run es s).
Proof. revert s. induction es as [|e es IH]; intros s; [reflexivity|]. cbn. rewrite IH, app_assoc. reflexivity. Qed.

Definition in_progress (s : session) : Prop := exists i, s_q s = Some (S i).

Lemma step_t e s : Inv s -> s_t (fst (step e s)) = if accepts e s then ev_time e else s_t s.
Proof.
  intros (_ & Hk & _). destruct (accepts e s) eqn:Ea; [|rewrite not_accepted by exact Ea; reflexivity].
  apply accepts_iff in Ea.
  destruct (step_good V P form parts start_item begin_attempt save_item submit_item outcome_defaults mkkey e s Ea Hk) as (_ & _ & _ & H).
  exact H.
Qed.

Lemma progress_before es s : Inv s -> in_progress s -> in_progress (run es s) -> 
  forall e es', es = e :: es' -> in_progress (fst (step e s)).
Proof.
  intros HI [i Hi] [j Hj] e es' ->. cbn in Hj. pose proof (step_moved e s HI) as H1.
  pose proof (run_moved es' _ (Inv_step' e s HI)) as H2. rewrite Hj in H2. rewrite Hi in H1.
  destruct (s_q (fst (step e s))) as [[|k]|] eqn:E; cbn in H1, H2; [lia| |destruct H2].
  exists k. exact E.
Qed.
Lemma total_time es s : Inv s -> Forall handles es -> in_progress s -> in_progress (run es s) ->
  total (fun _ => true) (intervals es s) = s_t (run es s) - s_t s.
Proof.
  revert s. induction es as [|e es IH]; intros s HI Hh Hp Hp'; cbn [TestSession.run TestSessionSpec.intervals]; [cbn; lia|].
  pose proof (progress_before _ _ HI Hp Hp' e es eq_refl) as Hm. apply Forall_cons_iff in Hh as [H1 H2].
  rewrite total_app, IH; [|apply Inv_step', HI|exact H2|exact Hm|exact Hp'].
  pose proof (step_t e s HI) as Ht. destruct Hp as [i Hi]. destruct e as [|a b now ps]; [destruct H1|].
  unfold interval. rewrite Hi. destruct (accepts (Handle P a b now ps) s); rewrite Ht.
  - rewrite total_one. cbn. lia.
  - cbn. lia.
Qed.

End Proofs.
