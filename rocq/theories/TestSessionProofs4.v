From Verif Require Import Py TestForm TestFormSpec TestSession TestSessionSpec TestSessionProofs
  TestSessionProofs2 TestSessionProofs3.
Open Scope Z_scope.

Section Proofs.
Variable V P : Type.
Variable form : list str.
Variable parts : str -> option (tpart V).
Variable start_item : nat -> V -> V * result unit.
Variable begin_attempt : nat -> V -> V * result unit.
Variable save_item : P -> nat -> V -> V * result unit.
Variable submit_item : P -> nat -> V -> V * result unit.
Variable outcome_defaults : V -> V.
Variable mkkey : Z -> str.

Notation NextQuestion := (NextQuestion V form parts start_item).
Notation AddDuration := (AddDuration V form parts).
Notation navigation := (navigation V form parts).
Notation attempt := (attempt V begin_attempt).
Notation step := (step V P form parts start_item begin_attempt save_item submit_item outcome_defaults mkkey).
Notation run := (run V P form parts start_item begin_attempt save_item submit_item outcome_defaults mkkey).
Notation s_key := (s_key V).
Notation s_t := (s_t V).
Notation s_q := (s_q V).
Notation s_vars := (s_vars V).
Notation session := (session V).
Notation vars := (vars V).
Notation advance := (advance V mkkey).

Definition durs (s : session) : list (option Z) := dur V (s_vars s).

(** A question is presented when its pre-conditions hold. *)
Definition passed (j : nat) : Prop :=
  exists id p v0 v1, nth_error form j = Some id /\ is_item parts id /\ parts id = Some p /\
    all_hold V (p_pre V p) v0 = Ok true /\ (exists ind, modes V parts p = Ok (true, ind)) /\ start_item j (vv V v0) = (v1, Ok tt).

Definition moved (s s' : session) : Prop :=
  s_q s' = s_q s \/
  exists i, s_q s = Some i /\
    (s_q s' = None \/
     exists j, s_q s' = Some j /\ (i < j < length form)%nat /\ passed j /\ at_ (durs s') j = Some 0).

Definition from (q : option nat) : nat := match q with Some i => S i | None => length form end.

Definition renewed (q : nat) (d d' : list (option Z)) : Prop :=
  length d' = length d /\
  forall k, at_ d' k = at_ d k \/
    ((q <= k)%nat /\ at_ d' k = Some 0 /\ exists id, item_at form parts k id).

Definition eff (s s' : session) : Prop := renewed (from (s_q s)) (durs s) (durs s') /\ moved s s'.

Lemma eff_refl s : eff s s.
Proof. split; [split; auto|left; reflexivity]. Qed.
Lemma eff_post s s1 s2 : eff s s1 -> durs s2 = durs s1 -> s_q s2 = s_q s1 -> eff s s2.
Proof.
  intros [A B] Hd Hq. split; [rewrite Hd; exact A|]. unfold moved in *. rewrite Hq, Hd. exact B.
Qed.
Lemma eff_pre s s1 s2 : durs s1 = durs s -> s_q s1 = s_q s -> eff s1 s2 -> eff s s2.
Proof.
  intros Hd Hq [A B]. split; [rewrite Hd, Hq in A; exact A|]. unfold moved in *. rewrite Hq in B. exact B.
Qed.

Lemma fresh_renewed q v v' : fresh V form parts q v v' -> renewed q (dur V v) (dur V v').
Proof.
  intros [A B]. split; [exact A|]. intros k. destruct (B k) as [E|(H1 & H2 & id & p & H3 & H4 & H5 & H6)].
  - left. exact E.
  - right. split; [exact H1|]. split; [exact H2|]. exists id. split; [exact H3|]. split.
    + destruct id as [|c id]; [discriminate|]. cbn in *. injection H6 as H6. lia.
    + exists p. auto.
Qed.

Lemma eff_NextQuestion s : length (durs s) = length form -> eff s (fst (NextQuestion s)).
Proof.
  intros Hl. destruct (NextQuestion s) as [s' r] eqn:E. cbn [fst].
  pose proof (NextQuestion_spec V form parts start_item s s' r Hl E) as H.
  destruct (s_q s) as [i|] eqn:Eq; [|subst; apply eff_refl].
  destruct H as [Hf Hq]. split; [rewrite Eq; apply fresh_renewed, Hf|].
  destruct r as [u|e]; [|left; congruence]. right. exists i. split; [exact Eq|].
  destruct Hq as [Hq|(j & Hj & Hr & Hp & Hd)]; [left; exact Hq|]. right. exists j.
  split; [exact Hj|]. split; [exact Hr|]. split; [|exact Hd].
  destruct Hp as (id & p & v0 & H1 & H2 & H3 & H4 & H5 & H6).
  unfold TestSession.start in H6. destruct (start_item j (vv V v0)) as [w [u'|e]] eqn:Es; [|discriminate].
  exists id, p, v0, w. split; [exact H1|]. split.
  { split; [|exists p; auto]. destruct id as [|c id]; [discriminate|]. cbn in *. injection H2 as H2. lia. }
  split; [exact H3|].
  unfold TestSession.CheckPreConditions in H5. rewrite H4 in H5.
  destruct (modes V parts p) as [[[|] ind]|]; try discriminate. split; [exact H5|].
  split; [exists ind; reflexivity|destruct u'; exact Es].
Qed.

Lemma on_item_eff f i s : durs (fst (on_item V f i s)) = durs s /\ s_q (fst (on_item V f i s)) = s_q s.
Proof. unfold on_item. destruct (f i (vv V (s_vars s))). split; reflexivity. Qed.
Lemma attempt_eff s : durs (fst (attempt s)) = durs s /\ s_q (fst (attempt s)) = s_q s.
Proof. unfold TestSession.attempt. destruct (s_q s) as [[|i]|] eqn:E; try (split; [reflexivity|exact E]). rewrite <- E. apply on_item_eff. Qed.
Lemma tail_eff s : let s' := fst (andthen V (attempt s) navigation) in durs s' = durs s /\ s_q s' = s_q s.
Proof.
  pose proof (attempt_eff s) as H. destruct (attempt s) as [s1 [u|e]]; cbn [andthen fst] in *; [|exact H].
  rewrite navigation_same. exact H.
Qed.

(** What an accepted event does before anything else. *)
Definition base (e : event P) (s s1 : session) : Prop :=
  match e with
  | Begin _ _ now => s_q s1 = s_q s /\ durs s1 = put (durs s) 0 (Some 0)
  | Handle _ _ _ now _ => s_q s1 = s_q s /\
      match s_q s with
      | Some (S i) =>
          length (durs s1) = length form /\
          forall k,
            (k = 0%nat \/ k = S i \/ contains form parts k (S i) ->
               at_ (durs s1) k = Some (or_zero (at_ (durs s) k) + (now - s_t s))) /\
            (~ (k = 0%nat \/ k = S i \/ contains form parts k (S i)) -> at_ (durs s1) k = at_ (durs s) k)
      | _ => durs s1 = durs s
      end
  end.

Definition Inv (s : session) : Prop :=
  length (durs s) = length form /\ s_key s <> [] /\
  match s_q s with
  | Some (S i) => (exists id, item_at form parts (S i) id) /\ (exists x, at_ (durs s) 0 = Some x) /\
                  (exists x, at_ (durs s) (S i) = Some x)
  | _ => True
  end.

Lemma AddDuration_base now s a b ps : form_ok form parts -> Inv s ->
  exists s1, AddDuration (now - s_t s) (advance now s) = (s1, Ok tt) /\ base (Handle P a b now ps) s s1.
Proof.
  intros Hf (Hl & _ & Hq). destruct (s_q s) as [[|i]|] eqn:Eq.
  - exists (advance now s). unfold TestSession.AddDuration. cbn [TestSession.s_q TestSessionProofs.advance]. rewrite Eq.
    split; [reflexivity|]. split; [cbn; congruence|]. rewrite Eq. reflexivity.
  - destruct Hq as ((id & Hid) & (x0 & H0) & (xi & Hi)).
    destruct (AddDuration_spec V form parts (now - s_t s) (advance now s) i id x0 xi Hf Hl Eq Hid H0 Hi)
      as (d' & E & Hl' & Hk).
    eexists. split; [exact E|]. split; [cbn; congruence|]. rewrite Eq. split; [exact Hl'|]. exact Hk.
  - exists (advance now s). unfold TestSession.AddDuration. cbn [TestSession.s_q TestSessionProofs.advance]. rewrite Eq.
    split; [reflexivity|]. split; [cbn; congruence|]. rewrite Eq. reflexivity.
Qed.

Lemma base_length e s s1 : Inv s -> base e s s1 -> length (durs s1) = length form.
Proof.
  intros (Hl & _) H. destruct e as [k now|a b now ps]; destruct H as [_ H].
  - rewrite H, put_length. exact Hl.
  - destruct (s_q s) as [[|i]|]; [rewrite H; exact Hl|apply H|rewrite H; exact Hl].
Qed.

Lemma save_eff s0 ps : eff s0 (fst (andthen V (match s_q s0 with
               | None | Some O => (s0, Ok tt)
               | Some i => on_item V (save_item ps) i s0
               end) navigation)).
Proof.
  destruct (s_q s0) as [[|i]|].
  - cbn [andthen]. rewrite navigation_same. apply eff_refl.
  - pose proof (on_item_eff (save_item ps) (S i) s0) as [H1 H2].
    destruct (on_item V (save_item ps) (S i) s0) as [s1 [u|e]]; cbn [andthen fst] in *.
    + rewrite navigation_same. eapply eff_post; [apply eff_refl|exact H1|exact H2].
    + eapply eff_post; [apply eff_refl|exact H1|exact H2].
  - cbn [andthen]. rewrite navigation_same. apply eff_refl.
Qed.

Lemma step_effect e s : form_ok form parts -> Inv s -> ev_key e = Some (s_key s) ->
  exists s1, base e s s1 /\ eff s1 (fst (step e s)).
Proof.
  intros Hf HI He. pose proof HI as (Hl & Hk & _).
  destruct e as [k0 now|[a|] b now ps]; [| |destruct b as [b|]; [|discriminate]];
  cbn in He; injection He as ->; cbn [TestSession.step HandleEvent].
  - unfold BeginSession. rewrite EventUpdate_good by exact Hk.
    match goal with |- context [NextQuestion ?x] => set (s1 := x) end.
    assert (Hb : base (Begin P (s_key s) now) s s1) by (split; reflexivity).
    exists s1. split; [exact Hb|].
    pose proof (eff_NextQuestion s1 (base_length _ _ _ HI Hb)) as H.
    destruct (NextQuestion s1) as [s2 [u|e]]; cbn [andthen fst] in *; [|exact H].
    destruct (tail_eff s2) as [T1 T2]. eapply eff_post; [exact H|exact T1|exact T2].
  - unfold SaveSession. rewrite EventUpdate_good by exact Hk.
    destruct (AddDuration_base now s (Some (s_key s)) b ps Hf HI) as (s1 & E & Hb).
    exists s1. split; [exact Hb|]. rewrite E. unfold andthen at 1. apply save_eff.
  - unfold SubmitSession. rewrite EventUpdate_good by exact Hk.
    destruct (AddDuration_base now s None (Some (s_key s)) ps Hf HI) as (s1 & E & Hb).
    exists s1. split; [exact Hb|]. rewrite E. unfold andthen at 1.
    pose proof (base_length _ _ _ HI Hb) as Hl1.
    assert (H : forall x, eff s1 (fst x) -> eff s1 (fst (andthen V x (fun s => andthen V (attempt s) navigation)))).
    { intros [s2 [u|e]] Hx; cbn [andthen fst] in *; [|exact Hx]. destruct (tail_eff s2) as [T1 T2].
      eapply eff_post; [exact Hx|exact T1|exact T2]. }
    apply H. destruct (s_q s1) as [[|i]|]; try apply eff_refl.
    destruct (question_modes V form parts (S i)) as [[[|] [|]]|]; try apply eff_refl.
    + pose proof (on_item_eff (submit_item ps) (S i) s1) as [H1 H2].
      destruct (on_item V (submit_item ps) (S i) s1) as [s2 [u|e]]; cbn [andthen fst] in *.
      * eapply eff_pre; [exact H1|exact H2|]. apply eff_NextQuestion. congruence.
      * eapply eff_post; [apply eff_refl|exact H1|exact H2].
    + pose proof (on_item_eff (save_item ps) (S i) s1) as [H1 H2].
      destruct (on_item V (save_item ps) (S i) s1) as [s2 [u|e]]; cbn [andthen fst] in *;
      (eapply eff_post; [apply eff_refl|exact H1|exact H2]).
Qed.

Hypothesis key_nonempty : forall t, mkkey t <> [].

Lemma base_started e s s1 : Inv s -> base e s s1 ->
  match e with Begin _ _ _ => exists x, at_ (durs s1) 0 = Some x \/ form = []
  | _ => True end.
Proof.
  intros (Hl & _) H. destruct e; [|exact I]. destruct H as [_ H]. exists 0. rewrite H.
  destruct form; [right; reflexivity|]. left. unfold at_. rewrite put_same; [reflexivity|].
  rewrite Hl. cbn. lia.
Qed.

Lemma step_rejected e s : ev_key e <> Some (s_key s) -> fst (step e s) = s.
Proof.
  intros H. destruct (ev_key e) as [k|] eqn:E.
  - rewrite (step_bad V P form parts start_item begin_attempt save_item submit_item outcome_defaults mkkey e s k E); [reflexivity|congruence].
  - rewrite step_missing by exact E. reflexivity.
Qed.

Lemma Inv_step e s : form_ok form parts -> Inv s -> Inv (fst (step e s)).
Proof.
  intros Hf HI.
  destruct (option_map (fun k => str_eqb k (s_key s)) (ev_key e)) as [[|]|] eqn:Ek.
  2:{ rewrite step_rejected; [exact HI|]. intros E. rewrite E in Ek. cbn in Ek. rewrite str_eqb_refl in Ek. discriminate. }
  2:{ rewrite step_rejected; [exact HI|]. intros E. rewrite E in Ek. discriminate. }
  assert (He : ev_key e = Some (s_key s)).
  { destruct (ev_key e) as [k|]; [|discriminate]. cbn in Ek. injection Ek as Ek. apply str_eqb_eq in Ek. congruence. }
  pose proof HI as (Hl & Hk & Hq).
  destruct (step_effect e s Hf HI He) as (s1 & Hb & [[Hlen Hd] Hm]).
  destruct (step_good V P form parts start_item begin_attempt save_item submit_item outcome_defaults mkkey e s He Hk)
    as (K1 & _ & _ & K4). cbn in K1, K4.
  split; [|split].
  - rewrite Hlen. apply (base_length _ _ _ HI Hb).
  - rewrite K1. apply key_nonempty.
  - set (s' := fst (step e s)) in *.
    assert (Hq1 : s_q s1 = s_q s) by (destruct e; apply Hb).
    assert (Hfl : (0 < length form)%nat) by (destruct Hf as (l & -> & _); cbn; lia).
    assert (H0 : (exists x, at_ (durs s1) 0 = Some x) -> exists x, at_ (durs s') 0 = Some x).
    { intros [x Hx]. destruct (Hd 0%nat) as [E|(Hle & E & _)]; [exists x; congruence|eauto]. }
    assert (Hbegin : forall i, s_q s1 = Some (S i) -> exists x, at_ (durs s1) 0 = Some x).
    { intros i E. rewrite Hq1 in E. rewrite E in Hq. destruct Hq as (_ & Hx & _).
      destruct e as [k now|a b now ps].
      - destruct Hb as [_ Hb]. exists 0. rewrite Hb. unfold at_. rewrite put_same by lia. reflexivity.
      - destruct Hb as [_ Hb]. rewrite E in Hb. destruct Hb as [_ Hb]. eexists. apply (Hb 0%nat). auto. }
    destruct Hm as [Hm|(i & Hi & [Hm|(j & Hj & Hr & Hpass & Hdj)])].
    + rewrite Hm, Hq1. destruct (s_q s) as [[|i]|] eqn:Eq; try exact I.
      destruct Hq as (Hid & _ & Hxi). split; [exact Hid|]. split.
      * apply H0, (Hbegin i). congruence.
      * assert (exists x, at_ (durs s1) (S i) = Some x) as [x Hx].
        { destruct e as [k now|a b now ps].
          - destruct Hb as [_ Hb]. rewrite Hb. unfold at_. rewrite put_other by discriminate. exact Hxi.
          - destruct Hb as [_ Hb]. rewrite Eq in Hb. destruct Hb as [_ Hb]. eexists. apply (Hb (S i)). auto. }
        destruct (Hd (S i)) as [E|(Hle & E & _)]; [exists x; congruence|eauto].
    + rewrite Hm. exact I.
    + rewrite Hj. destruct j as [|j]; [lia|].
      destruct Hpass as (id & p & v0 & v1 & P1 & P2 & P3 & _). split; [exists id; split; assumption|].
      split; [|eauto]. apply H0. destruct i as [|i]; [|eauto].
      destruct e as [k now|a b now ps].
      * destruct Hb as [_ Hb]. exists 0. rewrite Hb. unfold at_. rewrite put_same by lia. reflexivity.
      * exfalso.
        (* an event other than Begin does not move from the start *)
        assert (Eq0 : s_q s = Some 0%nat) by congruence.
        clear -Eq0 Hj Hk HI Hf key_nonempty He.
        assert (Hs : s_q s' = Some 0%nat).
        { unfold s'. destruct a as [a|]; cbn [TestSession.step HandleEvent].
          - cbn in He. injection He as ->. unfold SaveSession. rewrite EventUpdate_good by exact Hk.
            unfold TestSession.AddDuration. cbn [TestSessionProofs.advance TestSession.s_q]. rewrite Eq0.
            cbn [andthen TestSessionProofs.advance TestSession.s_q]. rewrite Eq0. cbn [andthen].
            rewrite navigation_same. exact Eq0.
          - destruct b as [b|]; [|discriminate]. cbn in He. injection He as ->.
            unfold SubmitSession. rewrite EventUpdate_good by exact Hk.
            unfold TestSession.AddDuration. cbn [TestSessionProofs.advance TestSession.s_q]. rewrite Eq0.
            cbn [andthen TestSessionProofs.advance TestSession.s_q]. rewrite Eq0. cbn [andthen].
            destruct (tail_eff (mkSession V (mkkey now) (s_key s) (s_key s :: s_used V s) now (s_q s) (s_vars s))) as [_ T].
            cbn [TestSession.s_q] in T. rewrite Eq0 in T. unfold TestSessionProofs.advance. rewrite Eq0. exact T. }
        congruence.
Qed.

Lemma Inv_new t v : Inv (new_session V form mkkey t v).
Proof.
  split; [|split; [|exact I]].
  - cbn. apply repeat_length.
  - cbn. apply key_nonempty.
Qed.
Lemma Inv_run es s : form_ok form parts -> Inv s -> Inv (run es s).
Proof. intros Hf. revert s. induction es as [|e es IH]; intros s H; [exact H|]. cbn. apply IH, Inv_step; assumption. Qed.

End Proofs.
