From Verif Require Import Py TestForm TestFormSpec TestSession TestSessionSpec.
Open Scope Z_scope.

Section Proofs.
Variable V P : Type.
Variable form : list str.
Variable parts : str -> option (tpart V).
Variable start_item : nat -> V -> V * result unit.
Variable begin_attempt : nat -> V -> V * result unit.
Variable save_item : P -> nat -> V -> V * result unit.
Variable submit_item : P -> nat -> V -> V * result unit.
Variable outcome_defaults : V -> V.
Variable mkkey : Z -> str.

Notation BranchTarget := (BranchTarget V form parts).
Notation start := (start V start_item).
Notation start_part := (start_part V parts start_item).
Notation next_loop := (next_loop V form parts start_item).
Notation search := (search V form parts start_item).
Notation NextQuestion := (NextQuestion V form parts start_item).
Notation EventUpdate := (EventUpdate V mkkey).
Notation new_session := (new_session V form mkkey).
Notation add_open := (add_open V form parts).
Notation AddDuration := (AddDuration V form parts).
Notation on_item := (on_item V).
Notation navigation := (navigation V form parts).
Notation attempt := (attempt V begin_attempt).
Notation step := (step V P form parts start_item begin_attempt save_item submit_item outcome_defaults mkkey).
Notation run := (run V P form parts start_item begin_attempt save_item submit_item outcome_defaults mkkey).
Notation s_key := (s_key V).
Notation s_prev := (s_prev V).
Notation s_used := (s_used V).
Notation s_t := (s_t V).
Notation s_q := (s_q V).
Notation s_vars := (s_vars V).
Notation session := (session V).
Notation vars := (vars V).

(** ** Keys *)
Definition same_keys (s s' : session) : Prop :=
  s_key s' = s_key s /\ s_prev s' = s_prev s /\ s_used s' = s_used s /\ s_t s' = s_t s.
Lemma same_refl s : same_keys s s.
Proof. repeat split. Qed.
Lemma same_trans a b c : same_keys a b -> same_keys b c -> same_keys a c.
Proof. intros (A1 & A2 & A3 & A4) (B1 & B2 & B3 & B4). repeat split; congruence. Qed.

Lemma same_andthen s x k : same_keys s (fst x) -> (forall s1, same_keys s s1 -> same_keys s (fst (k s1))) ->
  same_keys s (fst (andthen V x k)).
Proof. destruct x as [s1 [u|e]]; cbn; auto. Qed.
Lemma same_step0 s s1 x : same_keys s s1 -> same_keys s1 x -> same_keys s x.
Proof. apply same_trans. Qed.

Lemma same_NextQuestion s : same_keys s (fst (NextQuestion s)).
Proof.
  unfold NextQuestion. destruct (s_q s) as [i|]; [|apply same_refl].
  destruct (match i with O => Ok 1%nat | _ => BranchTarget i (s_vars s) end) as [iQ|e]; [|apply same_refl].
  destruct (search iQ (s_vars s)) as [v [q|e]]; repeat split.
Qed.
Lemma same_on_item f i s : same_keys s (fst (on_item f i s)).
Proof. unfold on_item. destruct (f i (vv V (s_vars s))). repeat split. Qed.
Lemma same_AddDuration dt s : same_keys s (fst (AddDuration dt s)).
Proof.
  unfold AddDuration. destruct (s_q s) as [[|i]|]; try apply same_refl.
  match goal with |- context [match ?x with Ok _ => _ | Err _ => _ end] => destruct x end; repeat split.
Qed.
Lemma same_attempt s : same_keys s (fst (attempt s)).
Proof.
  unfold attempt. destruct (s_q s) as [[|i]|]; try apply same_refl. apply same_on_item.
Qed.
Lemma navigation_same s : fst (navigation s) = s.
Proof.
  unfold navigation. destruct (s_q s) as [[|i]|]; try reflexivity.
  destruct (question_modes V form parts (S i)) as [[[|] [|]]|]; reflexivity.
Qed.
Lemma same_set_vars v s : same_keys s (set_vars V v s).
Proof. repeat split. Qed.

Lemma str_in_In k l : str_in k l = true <-> In k l.
Proof.
  unfold str_in. rewrite existsb_exists. split.
  - intros [x [H1 H2]]. apply str_eqb_eq in H2. subst. exact H1.
  - intros H. exists k. split; [exact H|apply str_eqb_refl].
Qed.

Lemma EventUpdate_bad key now s : key <> s_key s ->
  EventUpdate key now s = (s, Err (if str_in key (s_used s) then SessionKeyExpired else SessionKeyMismatch)).
Proof.
  intros H. unfold EventUpdate. destruct (str_eqb (s_key s) key) eqn:E; [|reflexivity].
  apply str_eqb_eq in E. congruence.
Qed.
Definition advance (now : Z) (s : session) : session :=
  mkSession V (mkkey now) (s_key s) (s_key s :: s_used s) now (s_q s) (s_vars s).
Lemma EventUpdate_good now s : s_key s <> [] ->
  EventUpdate (s_key s) now s = (advance now s, Ok (now - s_t s)).
Proof.
  intros H. unfold EventUpdate. rewrite str_eqb_refl. cbn [negb]. unfold advance.
  destruct (s_key s) eqn:E; [congruence|]. rewrite <- E. reflexivity.
Qed.

Lemma step_bad e s k : ev_key e = Some k -> k <> s_key s ->
  step e s = (s, Err (if str_in k (s_used s) then SessionKeyExpired else SessionKeyMismatch)).
Proof.
  intros He Hk. destruct e as [k0 now|[a|] [b|] now ps]; cbn in He; try discriminate; injection He as ->;
  cbn [TestSession.step HandleEvent]; unfold BeginSession, SaveSession, SubmitSession;
  rewrite EventUpdate_bad by exact Hk; reflexivity.
Qed.
Lemma step_missing e s : ev_key e = None -> step e s = (s, Err SessionActionMissing).
Proof. destruct e as [k0 now|[a|] [b|] now ps]; cbn; try discriminate. reflexivity. Qed.

Lemma step_good e s : ev_key e = Some (s_key s) -> s_key s <> [] ->
  same_keys (advance (ev_time e) s) (fst (step e s)).
Proof.
  intros He Hk.
  assert (T : forall now s1, same_keys (advance now s) s1 ->
     same_keys (advance now s) (fst (andthen V (attempt s1) navigation))).
  { intros now s1 H1. apply same_andthen; [eapply same_trans; [exact H1|apply same_attempt]|].
    intros s2 H2. rewrite navigation_same. exact H2. }
  destruct e as [k0 now|[a|] [b|] now ps]; cbn in He; try discriminate; injection He as ->;
  cbn [TestSession.step HandleEvent ev_time]; unfold BeginSession, SaveSession, SubmitSession;
  rewrite EventUpdate_good by exact Hk.
  - apply same_andthen; [eapply same_trans; [apply same_set_vars|apply same_NextQuestion]|]. apply T.
  - apply same_andthen; [apply same_AddDuration|]. intros s1 H1. apply same_andthen.
    + destruct (s_q s1) as [[|i]|]; try exact H1. eapply same_trans; [exact H1|apply same_on_item].
    + intros s2 H2. rewrite navigation_same. exact H2.
  - apply same_andthen; [apply same_AddDuration|]. intros s1 H1. apply same_andthen.
    + destruct (s_q s1) as [[|i]|]; try exact H1. eapply same_trans; [exact H1|apply same_on_item].
    + intros s2 H2. rewrite navigation_same. exact H2.
  - apply same_andthen; [apply same_AddDuration|]. intros s1 H1. apply same_andthen; [|apply T].
    destruct (s_q s1) as [[|i]|]; try exact H1.
    destruct (question_modes V form parts (S i)) as [[[|] [|]]|]; try exact H1.
    + apply same_andthen; [eapply same_trans; [exact H1|apply same_on_item]|].
      intros s2 H2. eapply same_trans; [exact H2|apply same_NextQuestion].
    + apply same_andthen; [eapply same_trans; [exact H1|apply same_on_item]|]. auto.
Qed.

Notation accepted := (accepted step).

Hypothesis key_nonempty : forall t, mkkey t <> [].

Lemma run_keys es s : s_key s = mkkey (s_t s) ->
  let s' := run es s in
  s_key s' = mkkey (s_t s') /\
  s_used s' = rev (map fst (accepted es s)) ++ s_used s /\
  map fst (accepted es s) ++ [s_key s'] = map mkkey (s_t s :: map snd (accepted es s)).
Proof.
  revert s. induction es as [|e es IH]; intros s Hs; cbn [TestSession.run TestSessionSpec.accepted].
  - cbn. rewrite Hs. auto.
  - assert (Hcase : (exists k, ev_key e = Some k /\ k = s_key s) \/
      (match ev_key e with Some k => if str_eqb k (s_key s) then [(k, ev_time e)] else [] | None => [] end = []
       /\ fst (step e s) = s)).
    { destruct (ev_key e) as [k|] eqn:Ek.
      - destruct (str_eqb k (s_key s)) eqn:E.
        + left. exists k. apply str_eqb_eq in E. auto.
        + right. split; [reflexivity|]. rewrite (step_bad e s k Ek); [reflexivity|].
          intros ->. rewrite str_eqb_refl in E. discriminate.
      - right. split; [reflexivity|]. rewrite step_missing by exact Ek. reflexivity. }
    destruct Hcase as [(k & Ek & ->)|[-> ->]].
    + rewrite Ek, str_eqb_refl.
      assert (Hne : s_key s <> []) by (rewrite Hs; apply key_nonempty).
      destruct (step_good e s Ek Hne) as (K1 & K2 & K3 & K4). cbn [advance TestSession.s_key TestSession.s_used TestSession.s_t] in K1, K3, K4.
      destruct (IH (fst (step e s))) as (I1 & I2 & I3); [congruence|].
      split; [exact I1|]. cbn [app map fst snd rev]. rewrite I2, K3. split.
      * rewrite <- app_assoc. reflexivity.
      * rewrite I3. cbn [map]. rewrite K4, Hs. reflexivity.
    + cbn [app]. apply IH, Hs.
Qed.

Lemma new_session_keys t0 v : s_key (new_session t0 v) = mkkey t0 /\ s_t (new_session t0 v) = t0 /\
  s_used (new_session t0 v) = [].
Proof. repeat split. Qed.

End Proofs.
