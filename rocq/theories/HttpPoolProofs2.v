(** The steps of the pool keep its dictionaries in order, and obey the rules. *)
From Coq Require Import List Arith Bool ZArith Lia Permutation.
From Verif Require Import Py HttpPool HttpPoolSpec HttpPoolProofs.
Import ListNotations.
Open Scope nat_scope.

Local Notation keq := key_eqb_eq. Local Notation teq := tg_eqb_eq. Local Notation neq := Nat.eqb_eq.
Lemma nodup_entry w c tg tg' o o' : NoDup (map id_of w) -> In (c, tg, o) w -> In (c, tg', o') w -> tg = tg' /\ o = o'.
Proof.
  induction w as [|[[d tg0] o0] w IH]; [intros _ []|]. cbn [map id_of fst]. intros ND. apply NoDup_cons_iff in ND as [N1 N2]. intros [E|H] [E'|H'].
  - rewrite E in E'. split; congruence.
  - exfalso. apply N1. assert (d = c) by congruence. subst d. apply (in_map id_of _ _ H').
  - exfalso. apply N1. assert (d = c) by congruence. subst d. apply (in_map id_of _ _ H).
  - auto.
Qed.
Lemma has_get {K} (eqb : K -> K -> bool) k c it : has eqb k c it -> exists l, get eqb k it = Some l /\ In c l.
Proof. auto. Qed.
Lemma key_dec (a b : key) : a = b \/ a <> b. Proof. apply (K_dec key_eqb keq). Qed.
Lemma inactive m c : Inv m -> o_thread (heap m c) = None -> forall k, get key_eqb k (active m) <> Some c.
Proof. intros I T k H. apply (i_act m I) in H as (_ & H & _). contradiction. Qed.

(** ** A connection no thread owns is bound to a thread *)
Lemma activate m c t : Inv m -> c < nextId m -> o_thread (heap m c) = None -> get key_eqb (Some t, o_target (heap m c)) (active m) = None ->
  exists m', ActivateConnection c t m = (m', true) /\ Inv m' /\ nextId m' = nextId m /\ closing m' = closing m /\
    length (active m') = S (length (active m)) /\ idle m' = drop c (idle m) /\
    (forall d, o_target (heap m' d) = o_target (heap m d)) /\ (forall d, o_queue (heap m' d) = o_queue (heap m d)) /\ (forall d, o_last (heap m' d) = o_last (heap m d)) /\
    get key_eqb (Some t, o_target (heap m c)) (active m') = Some c /\
    (forall k, k <> (Some t, o_target (heap m c)) -> get key_eqb k (active m') = get key_eqb k (active m)) /\
    (forall w, NoDup (map id_of w) -> In (c, o_target (heap m c), None) w ->
      (forall d tg o, d <> c -> (In (d, tg, o) w <-> o_target (heap m d) = tg /\ match o with Some t => get key_eqb (Some t, tg) (active m) = Some d | None => In d (idle m) end)) ->
      Rel (set_owner c (Some t) w) m').
Proof.
  intros I LT TN G. set (tg := o_target (heap m c)) in *. assert (NA := inactive m c I TN).
  assert (NT : forall u, ~ has Nat.eqb u c (threads m)) by (intros u H; apply (i_thr m I) in H; now apply NA in H).
  (* the result, whatever happens to the idle dictionaries *)
  assert (K : forall it, NoDup (map fst it) -> (forall tg' d, has tg_eqb tg' d it <-> has tg_eqb tg' d (idleT m) /\ ~ (tg' = tg /\ d = c)) ->
     inner tg_eqb (fun l => l <> []) it ->
     let m' := mkMgr (nextId m) (upd c (mkObj tg (Some t) (o_last (heap m c)) (o_queue (heap m c))) (heap m)) (put key_eqb (Some t, tg) c (active m))
       (put Nat.eqb t match get Nat.eqb t (threads m) with Some l => add c l | None => [c] end (threads m)) it (drop c (idle m)) (closing m) in
     Inv m' /\ (forall w, NoDup (map id_of w) -> In (c, tg, None) w ->
      (forall d tg o, d <> c -> (In (d, tg, o) w <-> o_target (heap m d) = tg /\ match o with Some t => get key_eqb (Some t, tg) (active m) = Some d | None => In d (idle m) end)) ->
      Rel (set_owner c (Some t) w) m')).
  { intros it N1 H1 H2 m'. assert (HT : forall d, o_target (heap m' d) = o_target (heap m d)).
    { intros d. cbn. unfold upd. destruct (d =? c) eqn:E; [apply Nat.eqb_eq in E; subst|]; reflexivity. }
    assert (HO : forall d, d <> c -> heap m' d = heap m d) by (intros; now apply upd_other).
    split.
    - constructor.
      + cbn [m' active]. apply NoDup_put; [apply keq|apply I].
      + cbn [m' threads]. apply NoDup_put; [apply neq|apply I].
      + assumption.
      + cbn [m' idle]. apply NoDup_drop, I.
      + intros k d H. change (active m') with (put key_eqb (Some t, tg) c (active m)) in H. change (nextId m') with (nextId m). destruct (key_dec k (Some t, tg)) as [->|N].
        * rewrite get_put_same in H by apply keq. injection H as <-. cbn. rewrite upd_same. cbn. split; [reflexivity|]. split; [discriminate|assumption].
        * rewrite get_put_other in H by (apply keq || assumption). assert (d <> c) by (intros ->; now apply NA in H). rewrite HO by assumption. now apply (i_act m I).
      + intros u d. rewrite HT. change (active m') with (put key_eqb (Some t, tg) c (active m)).
        change (threads m') with (put Nat.eqb t match get Nat.eqb t (threads m) with Some l => add c l | None => [c] end (threads m)). rewrite has_into by apply neq.
        destruct (key_dec (Some u, o_target (heap m d)) (Some t, tg)) as [E|N].
        * rewrite E, get_put_same by apply keq. injection E as -> E. split.
          -- intros [H|[_ ->]]; [|reflexivity]. apply (i_thr m I) in H. rewrite E in H. assert (X := eq_trans (eq_sym G) H). discriminate X.
          -- intros [= <-]. now right.
        * rewrite get_put_other by (apply keq || assumption). rewrite (i_thr m I). split; [|auto]. intros [H|[-> ->]]; [assumption|]. now contradiction N.
      + apply inner_put; [apply neq|apply I|]. destruct (get Nat.eqb t (threads m)) as [l|] eqn:E; [apply NoDup_add, (i_thn m I _ _ E)|]. constructor; [intros []|constructor].
      + intros d H. cbn [m' idle] in H. apply drop_In in H as [H N]. rewrite HO by assumption. now apply (i_idl m I).
      + intros tg' d. rewrite HT. cbn [m' idleT idle]. rewrite H1, drop_In, (i_it m I). split; [intros [[A B] C]; repeat split; auto|intros [[A B] C]; repeat split; auto; tauto].
        intros ->. apply C. split; [unfold tg; congruence|reflexivity].
      + assumption.
    - intros w ND IN H. split; [now rewrite set_owner_ids|]. intros d tg' o. rewrite set_owner_In, HT. cbn [m' active idle]. split.
      + intros [[N J]|(-> & -> & x & J)].
        * apply H in J as [J1 J2]; [|assumption]. split; [assumption|]. destruct o as [u|].
          -- rewrite get_put_other; [assumption|apply keq|]. intros E. rewrite E in J2. assert (X := eq_trans (eq_sym G) J2). discriminate X.
          -- now apply drop_In.
        * destruct (nodup_entry w c tg tg' None x ND IN J) as [<- _]. split; [reflexivity|]. apply get_put_same. apply keq.
      + intros [J1 J2]. destruct (Nat.eq_dec d c) as [->|N].
        * right. split; [reflexivity|]. fold tg in J1. subst tg'. destruct o as [u|].
          -- destruct (key_dec (Some u, tg) (Some t, tg)) as [E|N]; [split; [congruence|eauto]|]. rewrite get_put_other in J2 by (apply keq || assumption). now apply NA in J2.
          -- apply drop_In in J2. tauto.
        * left. split; [assumption|]. apply H; [assumption|]. split; [assumption|]. destruct o as [u|].
          -- rewrite get_put_other in J2; [assumption|apply keq|]. intros E. rewrite E, get_put_same in J2 by apply keq. congruence.
          -- apply drop_In in J2. tauto. }
  unfold ActivateConnection. fold tg. cbv zeta. cbn [idle]. destruct (mem c (idle m)) eqn:M.
  - apply mem_In in M. assert (HI : has tg_eqb tg c (idleT m)) by (apply (i_it m I); auto). destruct HI as (l & GL & IL).
    unfold leave_idle. cbn [heap idleT]. rewrite upd_same. cbn [o_target]. rewrite GL. rewrite (proj2 (mem_In c l) IL). cbn [nextId heap active threads idle closing].
    destruct (K match drop c l with [] => del tg_eqb tg (idleT m) | l' => put tg_eqb tg l' (idleT m) end) as [K1 K2].
    { apply NoDup_out; [apply teq|apply I]. }
    { intros tg' d. now apply has_out; [apply teq|]. }
    { apply inner_out; [apply teq|apply I|]. intros x l' E. rewrite E. discriminate. }
    eexists. split; [reflexivity|]. split; [exact K1|]. cbn [nextId closing active idle heap].
    split; [reflexivity|]. split; [reflexivity|]. split; [unfold put; cbn [length]; f_equal; now apply length_del_none|]. split; [reflexivity|].
    split; [intros d; unfold upd; destruct (d =? c) eqn:E; [apply Nat.eqb_eq in E; subst|]; reflexivity|]. split; [intros d; unfold upd; destruct (d =? c) eqn:E; [apply Nat.eqb_eq in E; subst|]; reflexivity|].
    split; [intros d; unfold upd; destruct (d =? c) eqn:E; [apply Nat.eqb_eq in E; subst|]; reflexivity|].
    split; [apply get_put_same; apply keq|]. split; [|exact K2]. intros k N. apply get_put_other; [apply keq|exact N].
  - assert (M' : ~ In c (idle m)) by (rewrite <- mem_In, M; discriminate). destruct (K (idleT m)) as [K1 K2].
    { apply I. }
    { intros tg' d. split; [|tauto]. intros H. split; [assumption|]. intros [-> ->]. apply (i_it m I) in H. tauto. }
    { apply I. }
    rewrite drop_none in K1, K2 by assumption. eexists. split; [reflexivity|]. split; [exact K1|]. cbn [nextId closing active idle heap]. rewrite drop_none by assumption.
    split; [reflexivity|]. split; [reflexivity|]. split; [unfold put; cbn [length]; f_equal; now apply length_del_none|]. split; [reflexivity|].
    split; [intros d; unfold upd; destruct (d =? c) eqn:E; [apply Nat.eqb_eq in E; subst|]; reflexivity|]. split; [intros d; unfold upd; destruct (d =? c) eqn:E; [apply Nat.eqb_eq in E; subst|]; reflexivity|].
    split; [intros d; unfold upd; destruct (d =? c) eqn:E; [apply Nat.eqb_eq in E; subst|]; reflexivity|].
    split; [apply get_put_same; apply keq|]. split; [|exact K2]. intros k N. apply get_put_other; [apply keq|exact N].
Qed.

(** ** A connection is created *)
Lemma create tg m m' c : Inv m -> NewConnection tg m = Some (m', c) ->
  Inv m' /\ c = nextId m /\ nextId m' = S c /\ o_target (heap m' c) = tg /\ o_thread (heap m' c) = None /\
  active m' = active m /\ idle m' = idle m /\ closing m' = closing m /\ (forall d, d <> c -> heap m' d = heap m d) /\ o_queue (heap m' c) = [] /\
  (forall k, get key_eqb k (active m) <> Some c) /\ ~ In c (idle m) /\ threads m' = threads m.
Proof.
  intros I. unfold NewConnection. destruct (supported tg); [|discriminate]. intros E. injection E as <- <-. set (c := nextId m).
  assert (NA : forall k, get key_eqb k (active m) <> Some c) by (intros k H; apply (i_act m I) in H as (_ & _ & H); unfold c in H; lia).
  assert (NI : ~ In c (idle m)) by (intros H; apply (i_idl m I) in H as [_ H]; unfold c in H; lia).
  cbn [nextId heap active idle closing threads]. rewrite upd_same. cbn [o_target o_thread o_queue].
  split; [|repeat split; auto; now intros; apply upd_other].
  assert (NT : forall t, ~ has Nat.eqb t c (threads m)) by (intros t H; apply (i_thr m I) in H; now apply NA in H).
  constructor; cbn [nextId heap active threads idleT idle closing]; try apply I.
  - intros k d H. assert (d <> c) by (intros ->; now apply NA in H). rewrite upd_other by assumption. destruct (i_act m I k d H) as (A & B & C). repeat split; auto.
  - intros t d. destruct (Nat.eq_dec d c) as [->|N]; [|rewrite upd_other by assumption; apply (i_thr m I)]. split; intros H; [now apply NT in H|now apply NA in H].
  - intros d H. assert (d <> c) by (intros ->; contradiction). rewrite upd_other by assumption. destruct (i_idl m I d H). split; auto.
  - intros tg' d. destruct (Nat.eq_dec d c) as [->|N]; [|rewrite upd_other by assumption; apply (i_it m I)]. split; [intros H; apply (i_it m I) in H; tauto|tauto].
Qed.

(** ** A thread has nothing to do with a connection *)
Lemma deactivate m c t w m' es n : Inv m -> Rel w m -> c < nextId m -> o_thread (heap m c) = Some t ->
  (forall d, get key_eqb (Some t, o_target (heap m c)) (active m) = Some d -> d = c) -> DeactivateConnection c m = (m', es, n) ->
  Inv m' /\ closing m' = closing m /\ nextId m' = nextId m /\ (forall d, o_target (heap m' d) = o_target (heap m d)) /\
  (forall d, o_queue (heap m' d) = o_queue (heap m d)) /\
  ((get key_eqb (Some t, o_target (heap m c)) (active m) = Some c /\ es = [Idled c] /\ n = 1 /\ Rel (set_owner c None w) m' /\
    S (length (active m')) = length (active m) /\ In (c, o_target (heap m c), Some t) w) \/
   (get key_eqb (Some t, o_target (heap m c)) (active m) = None /\ es = [] /\ n = 0 /\ Rel w m' /\ active m' = active m /\ idle m' = idle m)).
Proof.
  intros I R LT T S. set (tg := o_target (heap m c)) in *. unfold DeactivateConnection. rewrite T. fold tg. cbv zeta.
  assert (NI : ~ In c (idle m)) by (intros H; apply (i_idl m I) in H as [H _]; congruence).
  assert (HT : forall q d, o_target (upd c (mkObj tg None (o_last (heap m c)) q) (heap m) d) = o_target (heap m d)).
  { intros q d. unfold upd. destruct (d =? c) eqn:E; [apply Nat.eqb_eq in E; subst|]; reflexivity. }
  assert (HQ : forall d, o_queue (upd c (mkObj tg None (o_last (heap m c)) (o_queue (heap m c))) (heap m) d) = o_queue (heap m d)).
  { intros d. unfold upd. destruct (d =? c) eqn:E; [apply Nat.eqb_eq in E; subst|]; reflexivity. }
  destruct (get key_eqb (Some t, tg) (active m)) as [d|] eqn:G.
  - assert (d = c) by now apply S. subst d. cbn [threads]. assert (HH : has Nat.eqb t c (threads m)) by now apply (i_thr m I). destruct HH as (l & GL & IL). rewrite GL.
    cbn [nextId heap active idleT idle closing]. intros E. injection E as <- <- <-.
    assert (ACT : forall k d, get key_eqb k (del key_eqb (Some t, tg) (active m)) = Some d <-> get key_eqb k (active m) = Some d /\ d <> c).
    { intros k d. destruct (key_dec k (Some t, tg)) as [->|N].
      - rewrite get_del_same by apply keq. rewrite G. split; [discriminate|]. intros [[= <-] X]. contradiction.
      - rewrite get_del_other by (apply keq || assumption). split; [|tauto]. intros H. split; [assumption|]. intros ->. apply (i_act m I) in H as (-> & _). rewrite T in N. now apply N. }
    split; [|split; [reflexivity|split; [reflexivity|split; [apply HT|split; [apply HQ|]]]]].
    + constructor; cbn [nextId heap active threads idleT idle closing].
      * apply NoDup_del, I.
      * apply NoDup_out; [apply neq|apply I].
      * apply NoDup_put; [apply teq|apply I].
      * apply NoDup_add, I.
      * intros k d H. apply ACT in H as [H N]. rewrite upd_other by assumption. now apply (i_act m I).
      * intros u d. rewrite HT, has_out, ACT by (apply neq || assumption). rewrite (i_thr m I). split; intros [A B]; (split; [assumption|]).
        -- intros ->. apply B. split; [|reflexivity]. apply (i_act m I) in A as (A & _). rewrite T in A. congruence.
        -- intros [-> ->]. now apply B.
      * apply inner_out; [apply neq|apply I|]. intros x l' E. apply NoDup_drop. apply (i_thn m I _ _ GL).
      * intros d H. apply add_In in H as [->|H]; [rewrite upd_same; cbn; auto|]. assert (d <> c) by (intros ->; contradiction). rewrite upd_other by assumption. now apply (i_idl m I).
      * intros tg' d. rewrite HT, has_into, add_In by apply teq. rewrite (i_it m I). split.
        -- intros [[A B]|[-> ->]]; [auto|]. split; [now left|reflexivity].
        -- intros [[->|A] B]; [right; auto|left; auto].
      * apply inner_put; [apply teq|apply I|]. destruct (get tg_eqb tg (idleT m)); discriminate.
    + left. split; [reflexivity|]. split; [reflexivity|]. split; [reflexivity|]. split; [|split].
      * destruct R as [ND R]. split; [now rewrite set_owner_ids|]. intros d tg' o. rewrite set_owner_In. cbn [heap active idle]. rewrite HT. destruct o as [u|].
        -- rewrite ACT. split; [intros [[N H]|(_ & H & _)]; [apply R in H; tauto|discriminate]|]. intros [A [B C]]. left. split; [assumption|]. apply R. auto.
        -- rewrite add_In. split.
           ++ intros [[N H]|(-> & _ & x & H)]; [apply R in H; tauto|]. apply R in H as [H _]. auto.
           ++ intros [A [->|B]].
              ** right. split; [reflexivity|]. split; [reflexivity|]. exists (Some t). apply R. fold tg. rewrite <- A. auto.
              ** left. split; [intros ->; contradiction|]. apply R. auto.
      * cbn [active]. apply (length_del key_eqb keq) with (v := c); [apply I|assumption].
      * apply R. auto.
  - cbn [threads]. assert (NT : ~ has Nat.eqb t c (threads m)) by (intros H; apply (i_thr m I) in H; fold tg in H; assert (X := eq_trans (eq_sym G) H); discriminate X).
    assert (NA : forall k, get key_eqb k (active m) <> Some c).
    { intros k H. assert (X := i_act m I _ _ H). destruct X as (-> & _). rewrite T in H. fold tg in H. assert (X := eq_trans (eq_sym G) H); discriminate X. }
    intros E. injection E as <- <- <-. cbn [nextId heap active idleT idle closing].
    split; [|split; [reflexivity|split; [reflexivity|split; [apply HT|split; [apply HQ|]]]]].
    + constructor; cbn [nextId heap active threads idleT idle closing]; try apply I.
      * destruct (get Nat.eqb t (threads m)) as [l|]; [apply NoDup_out; [apply neq|]|]; apply I.
      * intros k d H. assert (d <> c) by (intros ->; now apply NA in H). rewrite upd_other by assumption. now apply (i_act m I).
      * intros u d. rewrite HT. rewrite <- (i_thr m I). destruct (get Nat.eqb t (threads m)) as [l|] eqn:GL; [|reflexivity]. rewrite has_out by (apply neq || assumption).
        split; [tauto|]. intros H. split; [assumption|]. intros [-> ->]. contradiction.
      * destruct (get Nat.eqb t (threads m)) as [l|] eqn:GL; [|apply I]. apply inner_out; [apply neq|apply I|]. intros x l' E. apply NoDup_drop. apply (i_thn m I _ _ GL).
      * intros d H. assert (d <> c) by (intros ->; contradiction). rewrite upd_other by assumption. now apply (i_idl m I).
      * intros tg' d. rewrite HT. apply (i_it m I).
    + right. split; [reflexivity|]. split; [reflexivity|]. split; [reflexivity|]. split; [|split; reflexivity]. apply rel_heap with (m := m); try reflexivity; [|exact R]. apply HT.
Qed.

(** ** An idle connection is taken out *)
Lemma leave m c : Inv m -> In c (idle m) ->
  exists m', leave_idle c m = (m', true) /\ Inv m' /\ active m' = active m /\ threads m' = threads m /\ idle m' = drop c (idle m) /\ heap m' = heap m /\ nextId m' = nextId m /\ closing m' = closing m /\
    (forall w, Rel w m -> Rel (forget c w) m' /\ In (c, o_target (heap m c), None) w).
Proof.
  intros I IC. assert (HI : has tg_eqb (o_target (heap m c)) c (idleT m)) by (apply (i_it m I); auto). destruct HI as (l & GL & IL).
  unfold leave_idle. rewrite GL, (proj2 (mem_In c l) IL). eexists. split; [reflexivity|]. cbn [nextId heap active threads idleT idle closing].
  split; [|repeat split; try reflexivity].
  - constructor; cbn [nextId heap active threads idleT idle closing]; try apply I.
    + apply NoDup_out; [apply teq|apply I].
    + apply NoDup_drop, I.
    + intros d H. apply drop_In in H as [H _]. now apply (i_idl m I).
    + intros tg d. rewrite has_out, drop_In, (i_it m I) by (apply teq || assumption). split; [intros [[A B] C]; repeat split; auto|intros [[A B] C]; repeat split; auto; tauto].
      intros ->. apply C. auto.
    + apply inner_out; [apply teq|apply I|]. intros x l' E. rewrite E. discriminate.
  - rewrite forget_ids. apply NoDup_drop. apply H.
  - apply forget_In in H0 as [H0 N]. apply H in H0 as [A B]. exact A.
  - apply forget_In in H0 as [H0 N]. apply H in H0 as [A B]. cbn [id_of fst] in N. destruct o; [assumption|]. now apply drop_In.
  - intros [A B]. apply forget_In. destruct o as [u|].
    + split; [apply H; auto|]. cbn. intros ->. apply (i_act m I) in B as (_ & B & _). apply (i_idl m I) in IC as [IC _]. contradiction.
    + apply drop_In in B as [B N]. split; [apply H; auto|exact N].
  - apply H. auto.
Qed.
(** ** A connection is taken from its thread *)
Lemma take_away m t c : Inv m -> has Nat.eqb t c (threads m) ->
  let tg := o_target (heap m c) in
  let m' := mkMgr (nextId m) (heap m) (del key_eqb (Some t, tg) (active m))
     match get Nat.eqb t (threads m) with Some d => put Nat.eqb t (drop c d) (threads m) | None => threads m end (idleT m) (idle m) (closing m) in
  o_thread (heap m c) = Some t /\ get key_eqb (Some t, tg) (active m) = Some c /\ Inv m' /\ S (length (active m')) = length (active m) /\
  (forall u d, has Nat.eqb u d (threads m') <-> has Nat.eqb u d (threads m) /\ d <> c) /\
  (forall k d, get key_eqb k (active m') = Some d <-> get key_eqb k (active m) = Some d /\ d <> c) /\
  (forall w, Rel w m -> Rel (forget c w) m' /\ In (c, tg, Some t) w).
Proof.
  intros I H tg m'. assert (G := proj1 (i_thr m I t c) H). fold tg in G. assert (X := i_act m I _ _ G). destruct X as (E & _ & LT). fold tg in E. assert (T : o_thread (heap m c) = Some t) by congruence. clear E.
  destruct H as (l & GL & IL).
  assert (HT : forall u d, has Nat.eqb u d (threads m') <-> has Nat.eqb u d (threads m) /\ d <> c).
  { intros u d. unfold m'. cbn [threads]. rewrite GL, has_keep by (apply neq || assumption). split; intros [A B]; (split; [assumption|]).
    - intros ->. apply B. split; [|reflexivity]. apply (i_thr m I) in A. fold tg in A. apply (i_act m I) in A as (A & _). rewrite T in A. congruence.
    - tauto. }
  assert (ACT : forall k d, get key_eqb k (active m') = Some d <-> get key_eqb k (active m) = Some d /\ d <> c).
  { intros k d. unfold m'. cbn [active]. destruct (key_dec k (Some t, tg)) as [->|N].
    - rewrite get_del_same by apply keq. rewrite G. split; [discriminate|]. intros [[= <-] X]. contradiction.
    - rewrite get_del_other by (apply keq || assumption). split; [|tauto]. intros H. split; [assumption|]. intros ->. apply (i_act m I) in H as (-> & _). rewrite T in N. now apply N. }
  split; [assumption|]. split; [assumption|]. split; [|split; [|split; [exact HT|split; [exact ACT|]]]].
  - constructor; try apply I.
    + unfold m'. cbn [active]. apply NoDup_del, I.
    + unfold m'. cbn [threads]. rewrite GL. apply NoDup_put; [apply neq|apply I].
    + intros k d H. apply ACT in H as [H _]. now apply (i_act m I).
    + intros u d. rewrite HT, ACT, (i_thr m I). reflexivity.
    + unfold m'. cbn [threads]. rewrite GL. apply inner_put; [apply neq|apply I|]. apply NoDup_drop, (i_thn m I _ _ GL).
  - unfold m'. cbn [active]. apply (length_del key_eqb keq) with (v := c); [apply I|assumption].
  - intros w [ND R]. split; [split|].
    + rewrite forget_ids. now apply NoDup_drop.
    + intros d tg' o. rewrite forget_In. cbn [id_of fst]. rewrite R. change (heap m') with (heap m). change (idle m') with (idle m). destruct o as [u|]; [rewrite ACT; tauto|].
      split; [tauto|]. intros [A B]. split; [auto|]. intros ->. apply (i_idl m I) in B as [B _]. congruence.
    + apply R. auto.
Qed.

(** * The search *)
Definition Good (limit : nat) (tr : list effect) (m : mgr) : Prop :=
  Inv m /\ length (active m) + length (idle m) <= limit /\ exists w, obeys limit tr w /\ Rel w m.
Lemma get_None_owner m w t tg : Rel w m -> get key_eqb (Some t, tg) (active m) = None -> forall d, ~ In (d, tg, Some t) w.
Proof. intros [_ R] G d H. apply R in H as [_ H]. assert (X := eq_trans (eq_sym G) H). discriminate X. Qed.

Section Search.
Variable limit : nat.
Variable values : list cid -> list cid.
Hypothesis values_perm : forall l, Permutation (values l) l.
Lemma values_In l c : In c (values l) <-> In c l.
Proof. split; apply Permutation_in; [apply values_perm|apply Permutation_sym, values_perm]. Qed.

Lemma values_nil l : values l = [] -> l = [].
Proof. intros E. assert (P := Permutation_length (values_perm l)). rewrite E in P. now destruct l. Qed.

(** Step 2: an idle connection is bound to the thread *)
Lemma bind_idle t tg tr m l : Good limit tr m -> get key_eqb (Some t, tg) (active m) = None -> get tg_eqb tg (idleT m) = Some l ->
  exists c l' m', rev (sort (heap m) (values l)) = c :: l' /\ ActivateConnection c t m = (m', true) /\ Good limit (tr ++ [Bound c t]) m' /\ closing m' = closing m /\
    get key_eqb (Some t, tg) (active m') = Some c /\ length (active m') = S (length (active m)) /\
    In c (idle m) /\ o_target (heap m c) = tg /\ (forall d, In d (idle m) -> o_target (heap m d) = tg -> (o_last (heap m d) <= o_last (heap m c))%Z) /\
    (forall d, o_queue (heap m' d) = o_queue (heap m d)) /\
    (forall k, k <> (Some t, tg) -> get key_eqb k (active m') = get key_eqb k (active m)).
Proof.
  intros (I & L & w & O & R) G GT. destruct (rev (sort (heap m) (values l))) as [|c l'] eqn:S.
  - exfalso. assert (Y : sort (heap m) (values l) = []) by (rewrite <- (rev_involutive (sort _ _)), S; reflexivity).
    apply sort_nil, values_nil in Y. now apply (i_itn m I _ _ GT).
  - apply youngest in S as [IC MAX]. apply (proj1 (values_In _ _)) in IC.
    assert (H : has tg_eqb tg c (idleT m)) by (exists l; split; assumption). apply (i_it m I) in H as [IC' <-].
    destruct (i_idl m I c IC') as [T LT]. destruct (activate m c t I LT T G) as (m1 & A1 & I1 & N1 & C1 & L1 & D1 & HT & HQ & HL & G1 & GO & R1).
    exists c, l', m1. split; [reflexivity|]. split; [assumption|]. split.
    + split; [assumption|]. split; [rewrite D1; assert (X := length_drop c (idle m) (i_idle m I) IC'); lia|].
      exists (set_owner c (Some t) w). split.
      * apply o_snoc with (w := w); [assumption|]. apply f_bound with (tg := o_target (heap m c)); [apply R; auto|now apply get_None_owner with (m := m)].
      * apply R1; [apply R|apply R; auto|intros d tg' o _; apply R].
    + repeat split; auto. intros d ID TD. apply MAX. apply (proj2 (values_In _ _)).
      assert (H : has tg_eqb (o_target (heap m c)) d (idleT m)) by (apply (i_it m I); auto). destruct H as (l2 & G2 & I2). rewrite GT in G2. congruence.
Qed.
(** Step 3: a new connection is bound to the thread *)
Lemma bind_new t tg tr m : Good limit tr m -> get key_eqb (Some t, tg) (active m) = None -> length (active m) + length (idle m) < limit -> supported tg = true ->
  exists m0 m', NewConnection tg m = Some (m0, nextId m) /\ ActivateConnection (nextId m) t m0 = (m', true) /\
    Good limit (tr ++ [Created (nextId m) tg; Bound (nextId m) t]) m' /\ closing m' = closing m /\
    get key_eqb (Some t, tg) (active m') = Some (nextId m) /\ length (active m') = S (length (active m)) /\ o_queue (heap m' (nextId m)) = [] /\
    (forall d, d <> nextId m -> o_queue (heap m' d) = o_queue (heap m d)) /\
    (forall k, k <> (Some t, tg) -> get key_eqb k (active m') = get key_eqb k (active m)).
Proof.
  intros (I & L & w & O & R) G LL SU. destruct (NewConnection tg m) as [[m0 c]|] eqn:NC; [|unfold NewConnection in NC; rewrite SU in NC; discriminate].
  apply create in NC as (I0 & EC & N0 & T0 & O0 & A0 & D0 & C0 & H0 & Q0 & NA & NI & _); [|assumption].
  assert (G0 : get key_eqb (Some t, o_target (heap m0 c)) (active m0) = None) by (rewrite T0, A0; exact G).
  assert (LT : c < nextId m0) by lia.
  destruct (activate m0 c t I0 LT O0 G0) as (m1 & A1 & I1 & N1 & C1 & L1 & D1 & HT & HQ & HL & G1 & GO & R1).
  rewrite T0 in G1. rewrite A0 in L1. rewrite D0, drop_none in D1 by assumption. rewrite <- EC.
  exists m0, m1. split; [reflexivity|]. split; [assumption|]. split.
  - split; [assumption|]. split; [rewrite D1, L1; lia|].
    assert (NW : ~ In c (map id_of w)).
    { intros H; apply in_map_iff in H as ([[d tg'] o] & E & H). cbn in E. subst d. apply R in H as [_ H]. destruct o; [now apply NA in H|contradiction]. }
    exists (set_owner c (Some t) ((c, tg, None) :: w)). split.
    + change [Created c tg; Bound c t] with ([Created c tg] ++ [Bound c t]). rewrite app_assoc.
      apply o_snoc with (w := (c, tg, None) :: w).
      * apply o_snoc with (w := w); [assumption|]. apply f_created; [rewrite (rel_length w m I R); lia|assumption].
      * apply f_bound with (tg := tg); [now left|]. intros d [E|H]; [discriminate|]. now apply (get_None_owner m w t tg R G d) in H.
    + apply R1.
      * cbn. constructor; [assumption|apply R].
      * left. now rewrite T0.
      * intros d tg' o N. cbn [In]. rewrite H0, A0, D0 by assumption. destruct R as [_ R]. rewrite <- R. split; [intros [E|H]; [congruence|assumption]|auto].
  - split; [congruence|]. split; [assumption|]. split; [assumption|]. split; [now rewrite HQ|]. split; [intros d N; rewrite HQ; now rewrite H0|]. rewrite T0, A0 in GO. exact GO.
Qed.

(** What a search may find, in a pool in order *)
Definition searched (t : thread) (tg : target) (tr : list effect) (m m' : mgr) (es : list effect) (r : found) : Prop :=
  Good limit (tr ++ es) m' /\ closing m' = closing m /\
  (forall d, d < nextId m -> o_queue (heap m' d) = o_queue (heap m d)) /\
  (forall k, k <> (Some t, tg) -> get key_eqb k (active m') = get key_eqb k (active m)) /\
  match r with
  | Found c => get key_eqb (Some t, tg) (active m') = Some c /\
      (c = nextId m /\ o_queue (heap m' c) = [] \/ c < nextId m) /\
      (get key_eqb (Some t, tg) (active m) = Some c /\ m' = m /\ es = [] \/ get key_eqb (Some t, tg) (active m) = None /\ length (active m') = S (length (active m)))
  | Full => es = [] /\ m' = m /\ idle m = [] /\ limit <= length (active m) /\ get key_eqb (Some t, tg) (active m) = None
  | Failed e => e = NotImplementedError /\ supported tg = false /\ active m' = active m /\ get key_eqb (Some t, tg) (active m) = None
  | Endless => False
  end.
Lemma search_good fuel t tg : forall tr m m' es r, Good limit tr m -> length (idle m) <= fuel ->
  search limit values fuel t tg m = (m', es, r) -> searched t tg tr m m' es r.
Proof.
  induction fuel as [fuel IH] using lt_wf_ind. intros tr m m' es r GD F.
  assert (U : search limit values fuel t tg m =
    match get key_eqb (Some t, tg) (active m) with
    | Some c => (m, [], Found c)
    | None =>
        match get tg_eqb tg (idleT m) with
        | Some l =>
            match rev (sort (heap m) (values l)) with
            | c :: _ => let '(m, ok) := ActivateConnection c t m in if ok then (m, [Bound c t], Found c) else (m, [], Failed KeyError)
            | [] => (m, [], Failed KeyError)
            end
        | None =>
            if length (active m) + length (idle m) <? limit then
              match NewConnection tg m with
              | None => (m, [], Failed NotImplementedError)
              | Some (m, c) => let '(m, ok) := ActivateConnection c t m in if ok then (m, [Created c tg; Bound c t], Found c) else (m, [Created c tg], Failed KeyError)
              end
            else
              match sort (heap m) (values (idle m)) with
              | c :: _ =>
                  let '(m, es, ok) := DeleteIdleConnection c m in
                  if ok then match fuel with O => (m, es, Endless) | S fuel => let '(m, es', r) := search limit values fuel t tg m in (m, es ++ es', r) end
                  else (m, es, Failed KeyError)
              | [] => (m, [], Full)
              end
        end
    end) by (destruct fuel; reflexivity).
  rewrite U. clear U. destruct (get key_eqb (Some t, tg) (active m)) as [c|] eqn:G.
  { intros E. injection E as <- <- <-. split; [now rewrite app_nil_r|]. split; [reflexivity|]. split; [reflexivity|]. split; [reflexivity|]. split; [assumption|]. split; [|left; auto]. right. destruct GD as (I & _). apply (i_act m I _ _ G). }
  destruct (get tg_eqb tg (idleT m)) as [l|] eqn:GT.
  { destruct (bind_idle t tg tr m l GD G GT) as (c & l' & m1 & -> & -> & G1 & C1 & K1 & L1 & IC & T1 & _ & Q1 & GO). intros E. injection E as <- <- <-.
    split; [assumption|]. split; [assumption|]. split; [auto|]. split; [exact GO|]. split; [assumption|]. split; [|right; auto]. right. destruct GD as (I & _). apply (i_idl m I c IC). }
  destruct (_ <? limit) eqn:LL; [apply Nat.ltb_lt in LL|apply Nat.ltb_ge in LL].
  { destruct (supported tg) eqn:SU.
    - destruct (bind_new t tg tr m GD G LL SU) as (m0 & m1 & -> & -> & G1 & C1 & K1 & L1 & Q0 & Q1 & GO). intros E. injection E as <- <- <-.
      split; [assumption|]. split; [assumption|]. split; [intros d N; apply Q1; lia|]. split; [exact GO|]. split; [assumption|]. split; [left; auto|right; auto].
    - unfold NewConnection. rewrite SU. intros E. injection E as <- <- <-. split; [now rewrite app_nil_r|]. repeat split; auto. }
  destruct (sort (heap m) (values (idle m))) as [|c l'] eqn:S.
  { intros E. injection E as <- <- <-. apply sort_nil, values_nil in S. split; [now rewrite app_nil_r|]. rewrite S in LL. cbn in LL. repeat split; auto. lia. }
  apply oldest in S as [IC _]. apply (proj1 (values_In _ _)) in IC.
  destruct fuel as [|fuel]; [destruct (idle m); [destruct IC|cbn in F; lia]|].
  destruct GD as (I & L & w & O & R).
  unfold DeleteIdleConnection. rewrite (proj2 (mem_In c (idle m)) IC). destruct (leave m c I IC) as (m1 & -> & I1 & A1 & T1 & D1 & H1 & N1 & C1 & R1).
  destruct (search limit values fuel t tg m1) as [[m2 es2] r2] eqn:S2. intros E. injection E as <- <- <-.
  assert (X := length_drop c (idle m) (i_idle m I) IC). destruct (R1 w R) as [R2 IN].
  assert (GG : searched t tg (tr ++ [Closed c]) m1 m2 es2 r2).
  { apply (IH fuel); [lia| |rewrite D1; lia|assumption]. split; [assumption|]. split; [rewrite A1, D1; lia|]. exists (forget c w). split; [|assumption]. apply o_snoc with (w := w); [assumption|]. eapply f_closed. exact IN. }
  destruct GG as (GG & CC & QQ & GO & KK). rewrite <- app_assoc in GG. cbn [app] in GG. split; [exact GG|]. split; [congruence|]. rewrite H1, N1 in QQ. split; [exact QQ|]. rewrite A1 in GO. split; [exact GO|]. rewrite A1, N1 in KK.
  destruct r2 as [d| |e|]; try assumption.
  - destruct KK as (K1 & K2 & [(K3 & _ & _)|K3]); [congruence|]. auto.
  - exfalso. destruct KK as (_ & _ & KD & KL & _). rewrite D1 in KD. rewrite KD in X. cbn in X. lia.
Qed.
End Search.
