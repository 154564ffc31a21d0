(** Histories of the pool. *)
From Coq Require Import List Arith Bool ZArith Lia Permutation.
From Verif Require Import SqlPool SqlPoolSpec SqlPoolProofs.
Import ListNotations.
Open Scope nat_scope.

Section Pool.
Variable safety : Z.
Variable maxConnections : nat.
Notation cPoolMax := (cPoolMax safety maxConnections).
Notation level0 := (level0 safety).
Notation Core := (Core safety maxConnections).

(** The module lock: counts what is held, and failed attempts unless the database is [up] *)
Definition Mod (up : bool) (H : list (thread * conn)) (m : rlock) : Prop :=
  if level0 then
    match m with
    | Dummy => False
    | Free => H = []
    | Owned o n => 1 <= n /\ length H <= n /\ (up = true -> n = length H) /\ forall t c, In (t, c) H -> t = o
    end
  else m = Dummy.

Lemma none_held H O p t : Core H O p -> (lookup t (locked p) = None <-> of_thread t H = []).
Proof.
  intros C. rewrite (c_hold _ _ _ _ _ C). destruct (lookup t (locked p)) as [k|] eqn:E; [|tauto].
  apply lookup_In in E. destruct (c_locked _ _ _ _ _ C t k E) as (_ & X & _). destruct (k_locked k); [lia|]. cbn [repeat]. split; discriminate.
Qed.
Lemma of_thread_none t (H : list (thread * conn)) : of_thread t H = [] <-> forall c, ~ In (t, c) H.
Proof.
  unfold of_thread. split.
  - intros E c Hc. assert (X : In (t, c) (filter (fun x => fst x =? t) H)) by (apply filter_In; split; [exact Hc|apply Nat.eqb_refl]). rewrite E in X. destruct X.
  - intros N. destruct (filter (fun x => fst x =? t) H) as [|[u c] l] eqn:E; [reflexivity|]. exfalso.
    assert (X : In (u, c) (filter (fun x => fst x =? t) H)) by (rewrite E; now left). apply filter_In in X as [X Y]. cbn in Y. apply Nat.eqb_eq in Y. subst u. exact (N c X).
Qed.
Lemma max_pos0 : level0 = true -> cPoolMax = 1.
Proof. intros E. unfold SqlPool.cPoolMax. now rewrite E. Qed.

Lemma seek_module_core up H O p t ok pick : Core H O p -> Mod up H (module p) -> (up = true -> ok = true) ->
  forall p' es o, seek_module safety maxConnections t ok pick p = (p', es, o) ->
  match o with
  | Got c => Core ((t, c) :: H) (open_after es O) p' /\ Mod up ((t, c) :: H) (module p') /\
      (of_thread t H = [] -> length (locked p') = S (length (locked p)) /\ length (locked p) < cPoolMax) /\
      (forall c', In (t, c') H -> c' = c /\ length (locked p') = length (locked p))
  | Waits f => f = (if level0 then WModule else WConn) /\ p' = p /\ es = [] /\ of_thread t H = [] /\
      (level0 = false -> cPoolMax <= length (locked p)) /\ (level0 = true -> up = true -> exists u c, In (u, c) H /\ u <> t)
  | Raised OpenError => ok = false /\ Core H (open_after es O) p' /\ Mod up H (module p') /\ locked p' = locked p
  | _ => False
  end.
Proof.
  intros C M Up p' es o. unfold seek_module. destruct (rl_acquire t (module p)) as [m|] eqn:RA.
  - assert (C' := core_module _ _ H O p m C). fold (with_module m p).
    (* the module lock after it was taken *)
    assert (M1 : forall c, In (t, c) H \/ True -> Mod up ((t, c) :: H) m).
    { intros c _. unfold Mod in *. destruct level0.
      - destruct (module p) as [| |o' n]; [contradiction| |]; cbn [rl_acquire] in RA.
        + injection RA as <-. subst H. cbn [length]. repeat split; auto. intros t' c' [[= -> ->]|[]]. reflexivity.
        + destruct (Nat.eqb_spec o' t) as [->|]; [|discriminate]. injection RA as <-. cbn [length]. destruct M as (M1 & M2 & M3 & M4). repeat split; [lia|lia|intros U; rewrite (M3 U); reflexivity|].
          intros t' c' [[= -> ->]|X]; [reflexivity|exact (M4 _ _ X)].
      - subst. rewrite M in RA. now injection RA. }
    assert (M2 : up = false -> Mod up H m).
    { intros U. unfold Mod in *. destruct level0.
      - destruct (module p) as [| |o' n]; [contradiction| |]; cbn [rl_acquire] in RA.
        + injection RA as <-. subst H. cbn [length]. repeat split; auto; try congruence. intros t' c' [].
        + destruct (Nat.eqb_spec o' t) as [->|]; [|discriminate]. injection RA as <-. destruct M as (X1 & X2 & X3 & X4). repeat split; [lia|lia|congruence|exact X4].
      - rewrite M in RA. now injection RA. }
    destruct (lookup t (locked p)) as [k|] eqn:L; [change (lookup t (locked (with_module m p))) with (lookup t (locked p)); rewrite L; cbn iota|
      change (lookup t (locked (with_module m p))) with (lookup t (locked p)); rewrite L; cbn iota].
    + destruct (again_ok _ _ _ _ _ _ _ C L) as [l A]. rewrite A. intros [= <- <- <-]. cbn [open_after fold_left].
      split; [apply (again_core _ _ H O (with_module m p) t k l C' L A)|]. split; [apply M1; auto|]. split.
      * intros X. apply (none_held _ _ _ _ C) in X. congruence.
      * intros c' Hc. apply (hold_iff _ _ _ _ _ _ _ C) in Hc as (k' & Lk & <-). rewrite L in Lk. injection Lk as <-. split; [reflexivity|]. cbn [locked].
        assert (Hk := lookup_In _ _ _ L). destruct (NoDup_keys_app _ _ (c_keys _ _ _ _ _ C)) as (NK1 & _). 
        exact (eq_sym (Permutation_length (without_perm t k (locked p) NK1 Hk))).
    + intros E. assert (S := seek_core _ _ H O (with_module m p) t ok pick false C' L p' es o E).
      assert (Lock0 : level0 = true -> locked p = []).
      { intros Z0. unfold Mod in M. rewrite Z0 in M. destruct (locked p) as [|[u k] l] eqn:EL; [reflexivity|]. exfalso.
        assert (Hu : In (u, k_dbc k) H). { apply (hold_iff _ _ _ _ _ _ _ C). exists k. split; [|reflexivity]. apply (core_lookup _ _ _ _ _ _ _ C). rewrite EL. now left. }
        destruct (module p) as [| |o' n]; cbn [rl_acquire] in RA; [contradiction|subst H; destruct Hu|]. destruct (Nat.eqb_spec o' t) as [->|]; [|discriminate].
        destruct M as (_ & _ & _ & M). apply M in Hu. subst u. apply lookup_none in L. apply L. now left. }
      change (module (with_module m p)) with m in S. change (locked (with_module m p)) with (locked p) in S.
      destruct o as [c| |f|e| | | |]; try (now exfalso).
      * destruct S as (S1 & S2 & S3 & S4). split; [exact S1|]. split; [rewrite S2; apply M1; auto|]. split; [auto|].
        intros c' Hc. apply (hold_iff _ _ _ _ _ _ _ C) in Hc as (k' & Lk & _). congruence.
      * destruct S as (-> & -> & -> & _ & S5). destruct level0 eqn:E0.
        { rewrite (max_pos0 E0), (Lock0 eq_refl) in S5. cbn in S5. lia. }
        assert (m = Dummy /\ module p = Dummy) as [-> MD].
        { unfold Mod in M. rewrite E0 in M. rewrite M in *. cbn [rl_acquire] in RA. split; congruence. }
        split; [reflexivity|]. split; [unfold with_module; rewrite <- MD; now destruct p|]. split; [reflexivity|]. split; [now apply (none_held _ _ _ _ C)|]. split; [auto|discriminate].
      * destruct e.
        -- destruct S as (S1 & S2). exfalso. unfold Mod in M. destruct level0 eqn:E0.
           ++ rewrite (max_pos0 E0), (Lock0 eq_refl) in S2. cbn in S2. lia.
           ++ rewrite M in RA. injection RA as <-. discriminate.
        -- destruct S as (S1 & S2 & S3 & S4). split; [exact S1|]. split; [exact S2|]. split; [|exact S4]. rewrite S3. apply M2. destruct up; [|reflexivity]. rewrite Up in S1; auto.
  - intros [= <- <- <-]. unfold Mod in M. destruct level0 eqn:E0; [|rewrite M in RA; discriminate].
    destruct (module p) as [| |o' n]; [contradiction|discriminate|]. cbn [rl_acquire] in RA. destruct (Nat.eqb_spec o' t) as [|NE]; [discriminate|].
    destruct M as (M1 & M2 & M3 & M4). split; [reflexivity|]. split; [reflexivity|]. split; [reflexivity|]. split; [|split; [discriminate|]].
    + apply of_thread_none. intros c Hc. apply M4 in Hc. congruence.
    + intros _ U. specialize (M3 U). destruct H as [|[u c] H']; [cbn in *; lia|]. exists u, c. split; [now left|]. rewrite (M4 u c (or_introl eq_refl)). congruence.
Qed.

(** ReleaseConnection *)
Lemma release_core up H O p t c : Core H O p -> Mod up H (module p) ->
  forall p' n es o, ReleaseConnection t c p = (p', n, es, o) ->
  (In (t, c) H /\ o = Released /\ es = [] /\ Core (remove_one (t, c) H) O p' /\ Mod up (remove_one (t, c) H) (module p') /\
     (if n then S (length (locked p')) = length (locked p) else length (locked p') = length (locked p)))
  \/ (~ In (t, c) H /\ (o = Raised RuntimeError \/ o = Logged) /\ es = [] /\ n = false /\ Core H O p' /\ module p' = module p /\ length (locked p') = length (locked p)).
Proof.
  intros C M p' n es o. unfold ReleaseConnection.
  destruct (match lookup t (locked p) with Some k => if k_dbc k =? c then Some k else None | None => None end) as [k|] eqn:E.
  - destruct (lookup t (locked p)) as [k'|] eqn:L; [|discriminate]. destruct (Nat.eqb_spec (k_dbc k') c) as [Ec|]; [|discriminate]. injection E as ->.
    assert (Hh : In (t, c) H) by (apply (hold_iff _ _ _ _ _ _ _ C); eauto).
    assert (Lk := lookup_In _ _ _ L). destruct (c_locked _ _ _ _ _ C t k Lk) as (K1 & K2 & K3).
    destruct (NoDup_keys_app _ _ (c_keys _ _ _ _ _ C)) as (NK1 & NK2 & NK3).
    assert (PM := without_perm t k (locked p) NK1 Lk). rewrite <- del_without in PM.
    assert (PL : length (locked p) = S (length (del t (locked p)))) by exact (Permutation_length PM).
    assert (R1 : exists l, rl_release t (k_lock k) = Some l /\ l = if level0 then Dummy else match k_locked k with S (S m) => Owned t (S m) | _ => Free end).
    { rewrite K3. destruct level0; cbn [rl_release]; [eauto|]. rewrite Nat.eqb_refl. eauto. }
    destruct R1 as (l & -> & El).
    assert (R2 : exists m, rl_release t (module p) = Some m /\ Mod up (remove_one (t, c) H) m).
    { unfold Mod in M |- *. destruct level0.
      - destruct (module p) as [| |o' n']; [contradiction|subst H; destruct Hh|]. destruct M as (M1 & M2 & M3 & M4). rewrite <- (M4 _ _ Hh). cbn [rl_release]. rewrite Nat.eqb_refl.
        eexists. split; [reflexivity|]. assert (RL := remove_one_length _ _ Hh).
        destruct n' as [|[|n']]; [lia| |].
        + destruct H as [|x [|y H]]; cbn [length] in *; [destruct Hh| |lia]. destruct (remove_one (t, c) [x]); [reflexivity|cbn in RL; lia].
        + repeat split; [lia|lia|intros U; specialize (M3 U); lia|]. intros t' c' X. apply remove_one_incl in X. rewrite (M4 _ _ X), (M4 _ _ Hh). reflexivity.
      - rewrite M. cbn [rl_release]. eauto. }
    destruct R2 as (m & -> & Mm).
    assert (HO : forall t', of_thread t' (remove_one (t, c) H) = if t' =? t then repeat (t, c) (pred (k_locked k)) else of_thread t' H).
    { intros t'. rewrite of_thread_remove. destruct (Nat.eqb_spec t' t) as [->|]; [|reflexivity]. rewrite (c_hold _ _ _ _ _ C), L, Ec. destruct (k_locked k); [lia|].
      cbn [repeat remove_one pred]. now rewrite (proj2 (same_iff (t, c) (t, c)) eq_refl). }
    destruct (Nat.eqb_spec (pred (k_locked k)) 0) as [Z0|NZ]; intros [= <- <- <- <-]; left; (split; [exact Hh|]; split; [reflexivity|]; split; [reflexivity|]; split; [|split; [exact Mm|cbn [locked]]]).
    + assert (NU : ~ In t (keys (unlocked p))) by (apply NK3, (in_map fst _ _ Lk)).
      assert (DU : del t (unlocked p) = unlocked p) by (apply without_none, NU).
      assert (PA : Permutation (all p) ((t, k) :: del t (locked p) ++ unlocked p)) by exact (Permutation_app_tail (unlocked p) PM).
      apply (core_move _ _ H O p); cbn [module locked unlocked dead closing fresh all]; unfold all; cbn [locked unlocked]; auto.
      * intros t'. rewrite HO, lookup_del. destruct (Nat.eqb_spec t' t) as [->|NE]; [now rewrite Z0|apply C].
      * unfold put. rewrite DU. eapply (NoDup_keys_perm ((t, mkClock (k_tid k) l (pred (k_locked k)) (k_dbc k)) :: del t (locked p) ++ unlocked p)); [apply Permutation_middle|].
        exact (NoDup_keys_perm _ _ PA (c_keys _ _ _ _ _ C)).
      * unfold put. rewrite DU, conns_app. cbn [conns map snd k_dbc]. fold (conns (unlocked p)). rewrite <- Permutation_middle, <- conns_app. symmetry. exact (Permutation_map (fun q : thread * clock => k_dbc (snd q)) PA).
      * intros t' k' Hk. apply without_In in Hk as [Hk _]. exact (c_locked _ _ _ _ _ C t' k' Hk).
      * intros t' k' [[= <- <-]|Hk].
        -- cbn [k_locked k_lock]. split; [exact Z0|]. rewrite El. unfold new_lock. destruct level0; [reflexivity|]. destruct (k_locked k) as [|[|]]; [reflexivity|reflexivity|discriminate].
        -- rewrite DU in Hk. exact (c_unlocked _ _ _ _ _ C t' k' Hk).
      * intros _ t' k' Hk. unfold put in Hk. rewrite DU in Hk. apply in_app_iff in Hk as [Hk|[[= <- <-]|Hk]].
        -- exists k'. split; [|reflexivity]. apply in_app_iff. left. apply without_In in Hk. tauto.
        -- exists k. split; [apply in_app_iff; now left|reflexivity].
        -- exists k'. split; [apply in_app_iff; now right|reflexivity].
    + rewrite PL. reflexivity.
    + apply (core_move _ _ H O p); cbn [module locked unlocked dead closing fresh all]; unfold all; cbn [locked unlocked]; auto.
      * intros t'. rewrite HO, lookup_put. destruct (Nat.eqb_spec t' t) as [->|NE]; [cbn [k_dbc k_locked]; now rewrite Ec|apply C].
      * exact (NoDup_keys_perm _ _ (Permutation_app_tail (unlocked p) PM) (c_keys _ _ _ _ _ C)).
      * unfold put. rewrite !conns_app. apply Permutation_app_tail. symmetry. exact (Permutation_map (fun q : thread * clock => k_dbc (snd q)) PM).
      * intros t' k' [[= <- <-]|Hk]; [|apply without_In in Hk as [Hk _]; exact (c_locked _ _ _ _ _ C t' k' Hk)]. cbn [k_tid k_locked k_lock].
        split; [exact K1|]. split; [lia|]. rewrite El. destruct level0; [reflexivity|]. destruct (k_locked k) as [|[|]]; [lia|cbn in NZ; lia|reflexivity].
      * apply (c_unlocked _ _ _ _ _ C).
      * intros _ t' k' Hk. cbn [put app] in Hk. destruct Hk as [[= <- <-]|Hk].
        -- exists k. split; [apply in_app_iff; now left|reflexivity].
        -- exists k'. split; [|reflexivity]. apply in_app_iff. apply in_app_iff in Hk as [Hk|Hk]; [apply without_In in Hk|]; tauto.
    + rewrite PL. reflexivity.
  - assert (Nh : ~ In (t, c) H).
    { intros X. apply (hold_iff _ _ _ _ _ _ _ C) in X as (k & L & Ek). rewrite L, Ek, Nat.eqb_refl in E. discriminate. }
    intros F. right. split; [exact Nh|]. destruct (c_state _ _ _ _ _ C) as [_ De]. rewrite De in F. cbn [find] in F.
    destruct (find (fun q => k_dbc (snd q) =? c) (locked p)) as [[bad k]|] eqn:Fi.
    + apply find_some in Fi as [Fi Ek]. cbn [snd] in Ek. apply Nat.eqb_eq in Ek. destruct (c_locked _ _ _ _ _ C bad k Fi) as (K1 & K2 & K3).
      destruct (NoDup_keys_app _ _ (c_keys _ _ _ _ _ C)) as (NK1 & NK2 & NK3).
      assert (L : lookup bad (locked p) = Some k) by (now apply (core_lookup _ _ _ _ _ _ _ C)).
      assert (Hb : In (bad, c) H) by (apply (hold_iff _ _ _ _ _ _ _ C); eauto).
      assert (NB : bad <> t) by (intros ->; contradiction).
      rewrite K3 in F. unfold Mod in M. destruct level0 eqn:E0.
      * cbn [rl_release] in F.
        assert (MB : rl_release t (module p) = None).
        { destruct (module p) as [| |o' n']; [contradiction|reflexivity|]. destruct M as (_ & _ & _ & M4). rewrite <- (M4 _ _ Hb). cbn [rl_release]. destruct (Nat.eqb_spec bad t); [contradiction|reflexivity]. }
        rewrite MB in F. injection F as <- <- <- <-. split; [now left|]. split; [reflexivity|]. split; [reflexivity|]. cbn [module locked].
        assert (PM := without_perm bad k (locked p) NK1 Fi). rewrite <- del_without in PM.
        assert (EK : mkClock (k_tid k) Dummy (k_locked k) (k_dbc k) = k) by (rewrite <- K3; now destruct k). rewrite EK.
        split; [|split; [reflexivity|exact (eq_sym (Permutation_length PM))]].
        apply (core_move _ _ H O p); cbn [module locked unlocked dead closing fresh all]; unfold all; cbn [locked unlocked]; auto.
        -- intros t'. rewrite lookup_put. destruct (Nat.eqb_spec t' bad) as [->|NE]; [rewrite (c_hold _ _ _ _ _ C), L; reflexivity|apply C].
        -- exact (NoDup_keys_perm _ _ (Permutation_app_tail (unlocked p) PM) (c_keys _ _ _ _ _ C)).
        -- unfold put. rewrite !conns_app. apply Permutation_app_tail. symmetry. exact (Permutation_map (fun q : thread * clock => k_dbc (snd q)) PM).
        -- intros t' k' [[= <- <-]|Hk]; [exact (c_locked _ _ _ _ _ C bad k Fi)|apply without_In in Hk as [Hk _]; exact (c_locked _ _ _ _ _ C t' k' Hk)].
        -- apply (c_unlocked _ _ _ _ _ C).
        -- intros _ t' k' Hk. exists k'. split; [|reflexivity]. apply in_app_iff. cbn [put app] in Hk. destruct Hk as [[= <- <-]|Hk]; [now left|]. apply in_app_iff in Hk as [Hk|Hk]; [apply without_In in Hk|]; tauto.
      * cbn [rl_release] in F. destruct (Nat.eqb_spec bad t) as [|_]; [contradiction|]. injection F as <- <- <- <-. split; [now left|]. auto.
    + injection F as <- <- <- <-. split; [now right|]. auto.
Qed.
End Pool.
