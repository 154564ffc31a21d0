(** Invariants of histories of the in-memory container. *)
From Verif Require Import Py Memds MemdsSpec MemdsProofs MemdsProofs2 MemdsProofs3.
From Coq Require Import Lia Permutation.

Section Inv.
Variable order : list key -> list key.
Hypothesis order_perm : forall l, Permutation (order l) l.
Variable sch : schema.

(** ** Deletion in any schema *)

Lemma cascade_links_good del nav i out o k ks :
  (forall s k st st' x, wf st -> del s k st = (st', x) -> good sch st st') ->
  forall st st' x, wf st -> cascade_links del nav i out o k ks st = (st', x) -> good sch st st'.
Proof.
  intros Hdel. induction ks as [|t ks IH]; intros st st' x W H; cbn [cascade_links] in H.
  - injection H as <- _. apply good_refl, W.
  - destruct (_ && _); [injection H as <- _; apply good_refl, W|].
    set (st1 := set_links st i _) in H.
    assert (G1 : good sch st st1).
    { assert (st1 = remove_link st (i, negb out) k t) as ->.
      { unfold st1, remove_link; cbn. destruct out; reflexivity. }
      apply good_remove, W. }
    destruct (del o t st1) as [st2 [y|]] eqn:E.
    + injection H as <- _. apply (good_trans sch _ st1 _ G1). eapply Hdel; [apply G1|exact E].
    + assert (G2 : good sch st1 st2) by (eapply Hdel; [apply G1|exact E]).
      apply (good_trans sch _ st1 _ G1). apply (good_trans sch _ st2 _ G2).
      eapply IH; [apply G2|exact H].
Qed.

Lemma cascade_ends_good del s k es :
  (forall s k st st' x, wf st -> del s k st = (st', x) -> good sch st st') ->
  forall st st' x, wf st -> cascade_ends order sch del s k es st = (st', x) -> good sch st st'.
Proof.
  intros Hdel. induction es as [|e es IH]; intros st st' x W H; cbn [cascade_ends] in H.
  - injection H as <- _. apply good_refl, W.
  - destruct (mult_eqb (end_mult sch e) One); [|eapply IH; eassumption].
    destruct (if Nat.eqb _ s then _ else _) as [st1 y] eqn:E.
    assert (G : good sch st st1).
    { destruct (Nat.eqb _ s); eapply cascade_links_good; eassumption. }
    destruct y as [y|]; [injection H as <- _; exact G|].
    apply (good_trans sch _ st1 _ G). eapply IH; [apply G|exact H].
Qed.

Lemma delitem_good fuel : forall s k st st' x, wf st ->
  delitem order sch fuel s k st = (st', x) -> good sch st st'.
Proof.
  induction fuel as [|f IH]; intros s k st st' x W H; cbn [delitem] in H.
  { injection H as <- <-. apply good_refl, W. }
  destruct (kmem_spec k (deleting (stores st s))) as [Hd|Hd];
    [injection H as <- <-; apply good_refl, W|].
  destruct (dmem k (data (stores st s))) eqn:Hp; cbn [negb] in H;
    [|injection H as <- <-; apply good_refl, W].
  set (st0 := set_store st s (StartDeleting (stores st s) k)) in *.
  assert (W0 : wf st0) by (intros i; apply W).
  destruct (cascade_ends order sch (delitem order sch f) s k (linkEnds sch s) st0)
    as [st1 [y|]] eqn:E.
  - assert (G1 : good sch st0 st1) by (eapply cascade_ends_good; eassumption).
    injection H as <- <-.
    apply (frame_good sch st s k st1 st1); [exact Hd|exact G1|left; reflexivity].
  - assert (G1 : good sch st0 st1) by (eapply cascade_ends_good; eassumption).
    destruct (DeleteEntity sch s k st1) as [st2 x2] eqn:ED. injection H as <- <-.
    apply (frame_good sch st s k st1 st2); [exact Hd|exact G1|].
    right. rewrite ED. reflexivity.
Qed.

(** ** Updates of the values *)

Lemma UpdateEntity_keys s k props s' : UpdateEntity s k props = Ok s' ->
  (forall k', dget k' (data s') = None <-> dget k' (data s) = None) /\
  deleting s' = deleting s /\ dget k (data s) <> None.
Proof.
  unfold UpdateEntity. destruct (dget k (data s)) as [row|] eqn:E; [|discriminate].
  destruct (update_row props row) as [r|]; cbn [bind]; [|discriminate]. injection 1 as <-.
  split; [|split; [reflexivity|discriminate]]. intros k'. cbn. rewrite dget_dset.
  destruct (key_eqb_spec k' k) as [->|]; [|reflexivity]. rewrite E. split; discriminate.
Qed.

Lemma coll_update_cases s k props bs st st' x : wf st ->
  coll_update order sch s k props bs st = (st', x) ->
  st' = st /\ x <> None \/
  exists st1, wf st1 /\ links st1 = links st /\ (forall y, present st1 y <-> present st y) /\
    (forall s', deleting (stores st1 s') = deleting (stores st s')) /\ present st1 (s, k) /\
    UpdateBindings order sch s k bs st1 = (st', x).
Proof.
  intros W. unfold coll_update. destruct (UpdateEntity (stores st s) k props) as [y|] eqn:E.
  2: { injection 1 as <- <-. left. split; [reflexivity|discriminate]. }
  intros H. right. exists (set_store st s y). apply UpdateEntity_keys in E.
  destruct E as (E1 & E2 & E3).
  assert (P : forall z, present (set_store st s y) z <-> present st z).
  { intros [s' k']. rewrite !present_row. unfold row_of; cbn. rewrite upd_case.
    destruct (Nat.eqb_spec s s') as [<-|]; [|reflexivity]. rewrite E1. reflexivity. }
  split; [exact W|]. split; [reflexivity|]. split; [exact P|]. split; [|split; [|exact H]].
  - intros s'. cbn. rewrite upd_case. destruct (Nat.eqb_spec s s') as [<-|]; [exact E2|reflexivity].
  - apply P. rewrite present_row. exact E3.
Qed.

(** ** Base invariant *)

Definition idle (st : state) : Prop := forall s, deleting (stores st s) = [].

Lemma idle_set_store st s y : deleting y = deleting (stores st s) -> idle st ->
  idle (set_store st s y).
Proof.
  intros E H s'. cbn. rewrite upd_case. destruct (Nat.eqb_spec s s') as [<-|]; [|apply H].
  rewrite E. apply H.
Qed.

Lemma idle_stores st st' : stores st' = stores st -> idle st -> idle st'.
Proof. intros E H s. rewrite E. apply H. Qed.

Lemma idle_prims :
  (forall st s y, wf st -> idle st -> data y = data (stores st s) ->
     deleting y = deleting (stores st s) -> idle (set_store st s y)) /\
  (forall st s k props, wf st -> idle st ->
     idle (set_store st s (AddEntity (stores st s) k props))) /\
  (forall st e k t vs vk st' x, wf st -> idle st ->
    (fst e < nassocs sch)%nat -> present st (end_store sch e, k) ->
    nav_setitem sch e k t vs vk st = (st', x) -> idle st') /\
  (forall st e k t st' x, wf st -> idle st ->
    (fst e < nassocs sch)%nat -> toMult sch e <> Many -> present st (end_store sch e, k) ->
    (false = true -> present st (end_store sch (other e), t)) ->
    nav_replace order sch e k t st = (st', x) -> idle st').
Proof.
  split; [|split; [|split]].
  - intros st s y _ H _ E. apply idle_set_store; assumption.
  - intros st s k props _ H. apply idle_set_store; [reflexivity|exact H].
  - intros st e k t vs vk st' x W H _ _ E. apply (keeps_set sch _ _ _ _ _ _ _ _ W) in E.
    apply (idle_stores st); [apply E|exact H].
  - intros st e k t st' x W H _ _ _ _ E.
    apply (keeps_rep order order_perm sch _ _ _ _ _ _ W) in E.
    apply (idle_stores st); [apply E|exact H].
Qed.

Lemma insert_idle flt s n fe st st' r : wf st -> idle st ->
  InsertEntity order sch flt s n fe st = (st', r) -> wf st' /\ idle st'.
Proof.
  intros W H E. destruct idle_prims as (P1 & P2 & P3 & P4).
  destruct (insert_kept order order_perm sch false idle P1 P2 P3 P4) as [K _].
  apply (K n flt s fe st st' r W H) in E; [|discriminate]. destruct E as [(A & B & _) _].
  split; assumption.
Qed.

Lemma bindings_idle s k bs st st' x : wf st -> idle st -> present st (s, k) ->
  UpdateBindings order sch s k bs st = (st', x) -> wf st' /\ idle st'.
Proof.
  intros W H Hp E. destruct idle_prims as (P1 & P2 & P3 & P4).
  destruct (insert_kept order order_perm sch false idle P1 P2 P3 P4) as [_ K].
  apply (K bs s k st st' x W H Hp) in E; [|discriminate]. destruct E as (A & B & _).
  split; assumption.
Qed.

Lemma nav_delitem_cases e k t st st' x : wf st -> nav_delitem sch e k t st = (st', x) ->
  (st' = st /\ x <> None) \/
  (x = None /\ st' = remove_link st e k t /\ fromMult sch e <> One /\ toMult sch e <> One).
Proof.
  intros W. unfold nav_delitem.
  destruct (mult_eqb (fromMult sch e) One || mult_eqb (toMult sch e) One) eqn:E;
    [injection 1 as <- <-; left; split; congruence|].
  apply orb_false_iff in E as [E1 E2]. apply mult_neqb in E1, E2.
  destruct (negb _); [injection 1 as <- <-; left; split; congruence|].
  injection 1 as <- <-. right. tauto.
Qed.

Lemma step_base fuel st o : wf st -> idle st ->
  wf (fst (step order sch fuel st o)) /\ idle (fst (step order sch fuel st o)).
Proof.
  intros W H. destruct (step order sch fuel st o) as [st' x] eqn:E. cbn [fst].
  destruct o as [s flt n|s k props bs|s k|e k t vs vk|e k t|e k t|e k n]; cbn [step] in E.
  - destruct (InsertEntity order sch flt s n None st) as [st1 r] eqn:E1.
    apply insert_idle in E1; [|exact W|exact H].
    destruct r; injection E as <- _; exact E1.
  - apply (coll_update_cases _ _ _ _ _ _ _ W) in E.
    destruct E as [[-> _]|(st1 & W1 & _ & _ & D1 & P1 & E)]; [split; assumption|].
    eapply bindings_idle; [exact W1| |exact P1|exact E]. intros s'. rewrite D1. apply H.
  - pose proof (delitem_good fuel s k st st' x W E) as G.
    split; [apply G|]. intros s'. rewrite (g_del _ _ _ G). apply H.
  - apply (keeps_set sch _ _ _ _ _ _ _ _ W) in E.
    split; [apply E|apply (idle_stores st); [apply E|exact H]].
  - apply (nav_delitem_cases _ _ _ _ _ _ W) in E.
    destruct E as [[-> _]|(_ & -> & _)]; [split; assumption|].
    split; [apply wf_remove, W|apply (idle_stores st); [reflexivity|exact H]].
  - apply (keeps_rep order order_perm sch _ _ _ _ _ _ W) in E.
    split; [apply E|apply (idle_stores st); [apply E|exact H]].
  - unfold nav_insert in E.
    destruct (InsertEntity order sch no_filter _ n _ st) as [st1 r] eqn:E1.
    apply insert_idle in E1; [|exact W|exact H]. destruct E1 as [W1 H1].
    destruct r as [t|y]; [|injection E as <- _; split; assumption].
    apply (keeps_set sch _ _ _ _ _ _ _ _ W1) in E.
    split; [apply E|apply (idle_stores st1); [apply E|exact H1]].
Qed.

Lemma wf_emptyState : wf emptyState.
Proof. intros i. apply wf_empty. Qed.

Lemma reach_base P Q st : reach order sch P Q st -> wf st /\ idle st.
Proof.
  induction 1 as [|st o fuel R [W H] _ _].
  - split; [apply wf_emptyState|]. intros s; reflexivity.
  - apply step_base; assumption.
Qed.

(** ** Upper bounds *)

Lemma step_AMO fuel st o : optional_many sch -> wf st -> AMO sch st -> no_takeover sch st o ->
  AMO sch (fst (step order sch fuel st o)).
Proof.
  intros HO W H HP. destruct (step order sch fuel st o) as [st' x] eqn:E. cbn [fst].
  destruct o as [s flt n|s k props bs|s k|e k t vs vk|e k t|e k t|e k n]; cbn [step] in E.
  - destruct (InsertEntity order sch flt s n None st) as [st1 r] eqn:E1.
    apply (AMO_insert order order_perm sch) in E1; [|exact HO|exact W|exact H].
    destruct r; injection E as <- _; apply E1.
  - apply (coll_update_cases _ _ _ _ _ _ _ W) in E.
    destruct E as [[-> _]|(st1 & W1 & L1 & _ & _ & P1 & E)]; [exact H|].
    apply (AMO_bindings order order_perm sch) in E;
      [apply E|exact HO|exact W1|apply (AMO_stores sch st); assumption|exact P1].
  - pose proof (delitem_good fuel s k st st' x W E) as G.
    apply (AMO_mono sch st); [exact W|apply G|apply G|exact H].
  - eapply AMO_set; [exact W|exact H|exact E].
  - apply (nav_delitem_cases _ _ _ _ _ _ W) in E.
    destruct E as [[-> _]|(_ & -> & _)]; [exact H|].
    apply (AMO_mono sch st); [exact W|apply wf_remove, W| |exact H].
    intros i a b Hl. apply linked_remove in Hl. apply Hl.
  - eapply (AMO_rep order order_perm sch); [exact W|exact H| |exact E].
    intros Hz k' Hl. apply (HP Hz k'). apply elink_linked in Hl; [exact Hl|exact W].
  - unfold nav_insert in E.
    destruct (InsertEntity order sch no_filter _ n _ st) as [st1 r] eqn:E1.
    apply (AMO_insert order order_perm sch) in E1; [|exact HO|exact W|exact H].
    destruct r as [t|y]; [|injection E as <- _; apply E1].
    eapply AMO_set; [apply E1|apply E1|exact E].
Qed.

Lemma elink_empty e k t : ~ elink emptyState e k t.
Proof. unfold elink, lookup; cbn. destruct (snd e); exact (fun H => H). Qed.

Lemma reach_AMO Q st : optional_many sch -> reach order sch (no_takeover sch) Q st ->
  at_most_one sch st.
Proof.
  intros HO R. apply amo_ends; [apply (reach_base _ _ _ R)|].
  change (AMO sch st). induction R as [|st o fuel R IH HP _].
  - intros e _ _ k t t' Hl. destruct (elink_empty _ _ _ Hl).
  - apply step_AMO; try assumption. apply (reach_base _ _ _ R).
Qed.

(** ** Links join existing entities *)

Lemma step_ND fuel st o : wf st -> ND sch st -> known_ends sch o -> no_stale sch st o ->
  ND sch (fst (step order sch fuel st o)).
Proof.
  intros W H HK HP. destruct (step order sch fuel st o) as [st' x] eqn:E. cbn [fst].
  destruct o as [s flt n|s k props bs|s k|e k t vs vk|e k t|e k t|e k n];
    cbn [step known_ends no_stale] in *.
  - destruct (InsertEntity order sch flt s n None st) as [st1 r] eqn:E1.
    apply (ND_insert order order_perm sch) in E1; [|exact W|exact H|exact HP].
    destruct r; injection E as <- _; apply E1.
  - apply (coll_update_cases _ _ _ _ _ _ _ W) in E.
    destruct E as [[-> _]|(st1 & W1 & L1 & Ps & _ & P1 & E)]; [exact H|].
    apply (ND_bindings order order_perm sch) in E; [apply E|exact W1| |exact P1|].
    + apply (ND_grows sch st); [exact L1| |exact H]. intros y Hy. apply Ps, Hy.
    + intros y Hy. apply Ps, HP, Hy.
  - pose proof (delitem_good fuel s k st st' x W E) as G.
    intros e a b He Hl. pose proof (g_wf _ _ _ G) as W'.
    assert (Hl0 : elink st e a b).
    { rewrite elink_linked in * by assumption. destruct (snd e); apply (g_link _ _ _ G), Hl. }
    destruct (H e a b He Hl0) as [H1 H2].
    assert (Hu : forall y, gone st st' y -> y <> (end_store sch e, a) /\ y <> (end_store sch (other e), b)).
    { intros y Hy. rewrite elink_linked in Hl by exact W'.
      destruct e as [i c]. unfold end_store, other in *; cbn in *.
      destruct c; cbn; apply (g_clean _ _ _ G y Hy) in Hl; try exact He; destruct Hl;
        split; apply not_eq_sym; assumption. }
    split.
    + destruct (present_dec st' (end_store sch e, a)) as [A|A]; [exact A|].
      destruct (Hu _ (conj H1 A)) as [B _]. congruence.
    + destruct (present_dec st' (end_store sch (other e), b)) as [A|A]; [exact A|].
      destruct (Hu _ (conj H2 A)) as [_ B]. congruence.
  - eapply ND_set; [exact W|exact H|exact HP|exact E].
  - apply (nav_delitem_cases _ _ _ _ _ _ W) in E.
    destruct E as [[-> _]|(_ & -> & _)]; [exact H|].
    intros f u v Hf Hl. apply elink_remove in Hl; [|exact W]. apply (H f u v Hf). apply Hl.
  - destruct HP as [HP1 HP2].
    eapply (ND_rep order order_perm sch); [exact W|exact H|exact HP1|exact HP2|exact E].
  - unfold nav_insert in E. destruct HP as [HP1 HP2].
    destruct (InsertEntity order sch no_filter _ n _ st) as [st1 r] eqn:E1.
    apply (ND_insert order order_perm sch) in E1; [|exact W|exact H|exact HP2].
    destruct r as [t|y]; [|injection E as <- _; apply E1].
    destruct E1 as (W1 & N1 & G1).
    eapply ND_set; [exact W1|exact N1|apply G1, HP1|exact E].
Qed.

Lemma reach_ND Q st :
  reach order sch (fun st o => known_ends sch o /\ no_stale sch st o) Q st -> no_dangling sch st.
Proof.
  intros R. apply nd_ends; [apply (reach_base _ _ _ R)|].
  change (ND sch st). induction R as [|st o fuel R IH [HP1 HP2] _].
  - intros e k t _ Hl. destruct (elink_empty _ _ _ Hl).
  - apply step_ND; try assumption. apply (reach_base _ _ _ R).
Qed.

(** ** Lower bounds *)

Definition ALO (st : state) : Prop :=
  forall e k, (fst e < nassocs sch)%nat -> toMult sch e = One ->
    present st (end_store sch e, k) -> served st e k.

Lemma ALO_new st st' : ALO st -> keeps sch st st' -> new_all sch st st' -> ALO st'.
Proof.
  intros H K N e k He Hm Hp. destruct (N _ Hp) as [A|A].
  - apply K; [exact He|exact Hm|]. apply H; assumption.
  - apply (A e He eq_refl Hm).
Qed.

Lemma delete_exact fuel s k st st' : no_self sch -> wf st -> idle st ->
  delitem order sch fuel s k st = (st', None) ->
  done sch (s, k) st st' /\ gone st st' (s, k) /\
  (forall x, gone st st' x <-> dependent sch st (s, k) x).
Proof.
  intros NS W H E.
  destruct (delitem_ok order order_perm sch NS fuel s k st st' None W E) as [G D].
  destruct (D eq_refl) as [[A _]|[A B]].
  { unfold isdel in A; cbn in A. rewrite (H s) in A. destruct A. }
  split; [exact B|]. split; [exact A|]. intros x. split; [apply (d_reach _ _ _ _ B)|].
  induction 1 as [|y z D1 IH R]; [exact A|].
  destruct (d_closed _ _ _ _ B y z IH R) as [C|C]; [exact C|].
  unfold isdel in C. rewrite (H (fst z)) in C. destruct C.
Qed.

Lemma step_ALO fuel st o st' : no_self sch -> one_unbound sch -> wf st -> idle st -> ALO st ->
  step order sch fuel st o = (st', None) -> ALO st'.
Proof.
  intros NS HU W HI H E.
  destruct o as [s flt n|s k props bs|s k|e k t vs vk|e k t|e k t|e k n]; cbn [step] in E.
  - destruct (InsertEntity order sch flt s n None st) as [st1 r] eqn:E1.
    destruct r as [k|]; cbn in E; [|discriminate]. injection E as <-.
    destruct (insert_served order order_perm sch HU) as [K _].
    destruct (K n flt s None st st1 k W E1) as (_ & K1 & N1).
    apply (ALO_new st); [exact H|exact K1|]. intros y Hy. destruct (N1 y Hy) as [A|A]; [tauto|].
    right. intros e He Es Em. destruct (A e He Es Em) as [B|[_ B]]; [exact B|discriminate].
  - apply (coll_update_cases _ _ _ _ _ _ _ W) in E.
    destruct E as [[_ E]|(st1 & W1 & L1 & Ps & _ & P1 & E)]; [congruence|].
    destruct (insert_served order order_perm sch HU) as [_ K].
    destruct (K bs s k st1 st' W1 E) as (_ & K1 & N1 & _).
    apply (ALO_new st1); [|exact K1|exact N1]. intros e a He Hm Hp. apply Ps in Hp.
    apply (keeps_links sch st st1 L1); [exact He|exact Hm|]. apply H; assumption.
  - destruct (delete_exact fuel s k st st' NS W HI E) as (D & _ & Hg).
    pose proof (d_good _ _ _ _ D) as G. pose proof (g_wf _ _ _ G) as W'.
    intros e a He Hm Hp. pose proof (good_present sch _ _ _ G Hp) as Hp0.
    destruct (H e a He Hm Hp0) as [t Ht]. exists t.
    assert (Hd : linked_at st' e a t \/ gone st st' (end_store sch e, a) \/
                 gone st st' (end_store sch (other e), t)).
    { rewrite elink_linked in Ht by exact W. destruct e as [i c].
      unfold linked_at, end_store, other in *; cbn in *.
      destruct c; cbn; destruct (d_link _ _ _ _ D i _ _ He Ht) as [A|[A|A]]; tauto. }
    destruct Hd as [A|[[_ A]|A]]; [|contradiction|].
    + rewrite elink_linked by exact W'. exact A.
    + exfalso.
      assert (R : requires sch st (end_store sch (other e), t) (end_store sch e, a)).
      { apply requires_ends; [exact W|]. exists (other e), t, a. split; [exact He|].
        split; [apply (elink_other st e a t W), Ht|]. split; [exact Hm|]. split; [reflexivity|].
        rewrite other_other. reflexivity. }
      apply Hg in A. assert (B : dependent sch st (s, k) (end_store sch e, a))
        by (apply (dep_step _ _ _ _ _ A R)).
      apply Hg in B. destruct B as [_ B]. contradiction.
  - apply (keeps_set sch _ _ _ _ _ _ _ _ W) in E.
    apply (ALO_new st); [exact H|apply E|apply new_all_stores, E].
  - apply (nav_delitem_cases _ _ _ _ _ _ W) in E.
    destruct E as [[_ E]|(_ & -> & H1 & H2)]; [congruence|].
    intros f u Hf Hm Hp. destruct (H f u Hf Hm Hp) as [t' Ht]. exists t'.
    apply elink_remove; [exact W|]. split; [exact Ht|]. split.
    + intros (-> & _). contradiction.
    + intros (-> & _). rewrite toMult_other in Hm. contradiction.
  - apply (keeps_rep order order_perm sch _ _ _ _ _ _ W) in E.
    apply (ALO_new st); [exact H|apply E|apply new_all_stores, E].
  - unfold nav_insert in E.
    destruct (InsertEntity order sch no_filter _ n _ st) as [st1 r] eqn:E1.
    destruct r as [t|y]; [|discriminate].
    destruct (insert_served order order_perm sch HU) as [K _].
    destruct (K n _ _ _ st st1 t W E1) as (W1 & K1 & N1).
    apply (keeps_set sch _ _ _ _ _ _ _ _ W1) in E. destruct E as (K2 & S2 & W2 & B2).
    destruct (B2 eq_refl) as [_ B2b].
    apply (ALO_new st); [exact H|apply (keeps_trans sch _ st1); assumption|].
    intros y Hy. apply (present_stores _ _ _ S2) in Hy. destruct (N1 y Hy) as [A|A]; [tauto|].
    right. intros f Hf Es Em. destruct (A f Hf Es Em) as [B|[-> B]].
    + apply K2; assumption.
    + injection B as <-. exact B2b.
Qed.

Lemma reach_ALO P st : no_self sch -> one_unbound sch -> reach order sch P success st ->
  at_least_one sch st.
Proof.
  intros NS HU R. apply alo_ends; [apply (reach_base _ _ _ R)|].
  change (ALO st). induction R as [|st o fuel R IH _ HQ].
  - intros e k _ _ [row Hp]. discriminate.
  - destruct (step order sch fuel st o) as [st' x] eqn:E. cbn [fst snd] in *.
    unfold success in HQ. subst x. destruct (reach_base _ _ _ R) as [W HI].
    eapply step_ALO; try eassumption.
Qed.

End Inv.

(** ** Entity sets as maps *)

Lemma update_row_overwrite props : forall row, length props = length row ->
  update_row props row = Ok (overwrite props row).
Proof.
  induction props as [|[b v] props IH]; intros [|w row] H; try discriminate; [reflexivity|].
  cbn. rewrite IH by (injection H; tauto). reflexivity.
Qed.

Lemma overwrite_length props : forall row, length (overwrite props row) = length row.
Proof.
  induction props as [|[b v] props IH]; intros [|w row]; cbn; try reflexivity.
  rewrite IH. reflexivity.
Qed.

Lemma store_refines w h : Forall (width_ok w) h ->
  forall k, dget k (data (fold_right (fun o s => do_sop s o) emptyStore h)) = written h k /\
    forall row, written h k = Some row -> length row = w.
Proof.
  induction 1 as [|o h Ho _ IH]; intros k; cbn [fold_right written].
  - split; [reflexivity|discriminate].
  - set (s := fold_right (fun o s => do_sop s o) emptyStore h) in *.
    destruct o as [k' vs|k' props|k']; cbn [do_sop] in *.
    + unfold AddEntity; cbn. rewrite dget_dset. destruct (key_eqb k k'); [|apply IH].
      split.
      * f_equal. clear. induction vs as [|v vs IH]; cbn; [reflexivity|]. f_equal. exact IH.
      * intros row [= <-]. exact Ho.
    + destruct (IH k') as [E1 L1]. unfold UpdateEntity. rewrite E1.
      destruct (written h k') as [row|] eqn:Ew.
      * rewrite update_row_overwrite by (rewrite (L1 row eq_refl); exact Ho). cbn.
        rewrite dget_dset. destruct (key_eqb_spec k k') as [->|]; [|apply IH].
        rewrite Ew. cbn. split; [reflexivity|].
        intros r [= <-]. rewrite overwrite_length. apply L1; reflexivity.
      * destruct (key_eqb_spec k k') as [->|]; [|apply IH]. rewrite Ew, E1.
        split; [reflexivity|discriminate].
    + cbn. rewrite dget_ddel. destruct (key_eqb k k'); [|apply IH].
      split; [reflexivity|discriminate].
Qed.

Lemma read_row_all row : read_row (repeat true (length row)) row = row.
Proof. induction row as [|v row IH]; cbn; [reflexivity|]. rewrite IH. reflexivity. Qed.

(** ** Filters *)

Lemma coll_getitem_spec flt s k row st :
  coll_getitem flt s k st = Ok row <->
  row_of st (s, k) = Some row /\ match flt with Some f => f row = true | None => True end.
Proof.
  unfold coll_getitem, row_of; cbn. destruct (dget k _) as [r|].
  - destruct flt as [f|]; [destruct (f r) eqn:E|].
    + split; [intros [= <-]; split; [reflexivity|exact E]|intros [[= ->] _]; reflexivity].
    + split; [discriminate|intros [[= ->] H]; congruence].
    + split; [intros [= <-]; split; [reflexivity|exact I]|intros [[= ->] _]; reflexivity].
  - split; [discriminate|]. intros [H _]; discriminate.
Qed.

Lemma coll_len_iter flt s st : coll_len flt s st = length (coll_iter flt s st).
Proof.
  unfold coll_len. destruct flt as [f|]; [reflexivity|]. unfold coll_iter. f_equal. cbn.
  symmetry. induction (data (stores st s)) as [|p l IH]; cbn; [reflexivity|]. f_equal; exact IH.
Qed.

Lemma In_dget {A} k (a : A) d : NoDup (map fst d) -> In (k, a) d -> dget k d = Some a.
Proof.
  induction d as [|[k1 a1] d IH]; cbn; [tauto|]. intros H Hin.
  apply NoDup_cons_iff in H as [H1 H2]. destruct Hin as [[= <- <-]|Hin].
  - rewrite key_eqb_refl. reflexivity.
  - destruct (key_eqb_spec k k1) as [<-|]; [|apply IH; assumption].
    exfalso. apply H1. apply (in_map fst) in Hin. exact Hin.
Qed.

Lemma coll_getitem_iter flt s k row st : NoDup (map fst (data (stores st s))) ->
  coll_getitem flt s k st = Ok row <-> In (k, row) (coll_iter flt s st).
Proof.
  intros N. rewrite coll_getitem_spec. unfold coll_iter. rewrite filter_In. unfold row_of; cbn.
  assert (E : dget k (data (stores st s)) = Some row <-> In (k, row) (data (stores st s))).
  { split; [apply dget_In|apply In_dget, N]. }
  rewrite E. destruct flt as [f|]; cbn; tauto.
Qed.

Definition keys_ok (st : state) : Prop := forall s, NoDup (map fst (data (stores st s))).

Lemma NoDup_dset {A} k (a : A) d : NoDup (map fst d) -> NoDup (map fst (dset k a d)).
Proof.
  intros H. rewrite map_fst_dset. destruct (dmem k d) eqn:E; [exact H|].
  apply NoDup_snoc; [exact H|]. intros Hin. apply dmem_In in Hin. congruence.
Qed.

Lemma keys_set_store st s y : keys_ok st -> NoDup (map fst (data y)) -> keys_ok (set_store st s y).
Proof.
  intros H Hy s'. cbn. rewrite upd_case. destruct (Nat.eqb s s'); [exact Hy|apply H].
Qed.

Lemma keys_stores st st' : stores st' = stores st -> keys_ok st -> keys_ok st'.
Proof. intros E H s. rewrite E. apply H. Qed.

Section Keys.
Variable order : list key -> list key.
Hypothesis order_perm : forall l, Permutation (order l) l.
Variable sch : schema.

Lemma keys_prims :
  (forall st s y, wf st -> keys_ok st -> data y = data (stores st s) ->
     deleting y = deleting (stores st s) -> keys_ok (set_store st s y)) /\
  (forall st s k props, wf st -> keys_ok st ->
     keys_ok (set_store st s (AddEntity (stores st s) k props))) /\
  (forall st e k t vs vk st' x, wf st -> keys_ok st ->
    (fst e < nassocs sch)%nat -> present st (end_store sch e, k) ->
    nav_setitem sch e k t vs vk st = (st', x) -> keys_ok st') /\
  (forall st e k t st' x, wf st -> keys_ok st ->
    (fst e < nassocs sch)%nat -> toMult sch e <> Many -> present st (end_store sch e, k) ->
    (false = true -> present st (end_store sch (other e), t)) ->
    nav_replace order sch e k t st = (st', x) -> keys_ok st').
Proof.
  split; [|split; [|split]].
  - intros st s y _ H E _. apply keys_set_store; [exact H|]. rewrite E. apply H.
  - intros st s k props _ H. apply keys_set_store; [exact H|]. apply NoDup_dset, H.
  - intros st e k t vs vk st' x W H _ _ E. apply (keeps_set sch _ _ _ _ _ _ _ _ W) in E.
    apply (keys_stores st); [apply E|exact H].
  - intros st e k t st' x W H _ _ _ _ E.
    apply (keeps_rep order order_perm sch _ _ _ _ _ _ W) in E.
    apply (keys_stores st); [apply E|exact H].
Qed.

Lemma cascade_links_keys del nav i out o k ks :
  (forall s k st st' x, keys_ok st -> del s k st = (st', x) -> keys_ok st') ->
  forall st st' x, keys_ok st -> cascade_links del nav i out o k ks st = (st', x) -> keys_ok st'.
Proof.
  intros Hdel. induction ks as [|t ks IH]; intros st st' x W H; cbn [cascade_links] in H.
  - injection H as <- _. exact W.
  - destruct (_ && _); [injection H as <- _; exact W|].
    set (st1 := set_links st i _) in H.
    destruct (del o t st1) as [st2 [y|]] eqn:E.
    + injection H as <- _. eapply Hdel; [|exact E]. exact W.
    + eapply IH; [|exact H]. eapply Hdel; [|exact E]. exact W.
Qed.

Lemma cascade_ends_keys del s k es :
  (forall s k st st' x, keys_ok st -> del s k st = (st', x) -> keys_ok st') ->
  forall st st' x, keys_ok st -> cascade_ends order sch del s k es st = (st', x) -> keys_ok st'.
Proof.
  intros Hdel. induction es as [|e es IH]; intros st st' x W H; cbn [cascade_ends] in H.
  - injection H as <- _. exact W.
  - destruct (mult_eqb (end_mult sch e) One); [|eapply IH; eassumption].
    destruct (if Nat.eqb _ s then _ else _) as [st1 y] eqn:E.
    assert (G : keys_ok st1).
    { destruct (Nat.eqb _ s); eapply cascade_links_keys; eassumption. }
    destruct y as [y|]; [injection H as <- _; exact G|]. eapply IH; eassumption.
Qed.

Lemma delitem_keys fuel : forall s k st st' x, keys_ok st ->
  delitem order sch fuel s k st = (st', x) -> keys_ok st'.
Proof.
  induction fuel as [|f IH]; intros s k st st' x W H; cbn [delitem] in H.
  { injection H as <- <-. exact W. }
  destruct (kmem k _); [injection H as <- <-; exact W|].
  destruct (negb _); [injection H as <- <-; exact W|].
  set (st0 := set_store st s (StartDeleting (stores st s) k)) in *.
  assert (W0 : keys_ok st0) by (apply keys_set_store; [exact W|apply W]).
  destruct (cascade_ends order sch (delitem order sch f) s k (linkEnds sch s) st0)
    as [st1 y] eqn:E.
  assert (W1 : keys_ok st1) by (eapply cascade_ends_keys; eassumption).
  destruct y as [y|].
  - injection H as <- <-. apply keys_set_store; [exact W1|apply W1].
  - destruct (DeleteEntity sch s k st1) as [st2 x2] eqn:ED. injection H as <- <-.
    assert (W2 : keys_ok st2).
    { unfold DeleteEntity in ED. destruct (dmem k _); injection ED as <- _; [|exact W1].
      apply keys_set_store; [exact W1|]. cbn. rewrite map_fst_ddel. apply NoDup_sdiscard, W1. }
    apply keys_set_store; [exact W2|apply W2].
Qed.

Lemma step_keys fuel st o : wf st -> keys_ok st -> keys_ok (fst (step order sch fuel st o)).
Proof.
  intros W H. destruct (step order sch fuel st o) as [st' x] eqn:E. cbn [fst].
  destruct keys_prims as (P1 & P2 & P3 & P4).
  pose proof (insert_kept order order_perm sch false keys_ok P1 P2 P3 P4) as [KI KU].
  destruct o as [s flt n|s k props bs|s k|e k t vs vk|e k t|e k t|e k n]; cbn [step] in E.
  - destruct (InsertEntity order sch flt s n None st) as [st1 r] eqn:E1.
    apply (KI n flt s None st st1 r W H) in E1; [|discriminate]. destruct E1 as [(_ & H1 & _) _].
    destruct r; injection E as <- _; exact H1.
  - unfold coll_update in E. destruct (UpdateEntity (stores st s) k props) as [y|] eqn:Eu;
      [|injection E as <- _; exact H].
    pose proof (UpdateEntity_keys _ _ _ _ Eu) as (_ & _ & Hp).
    assert (H1 : keys_ok (set_store st s y)).
    { apply keys_set_store; [exact H|]. unfold UpdateEntity in Eu.
      destruct (dget k _) as [row|]; [|discriminate].
      destruct (update_row props row); cbn [bind] in Eu; [|discriminate].
      injection Eu as <-. apply NoDup_dset, H. }
    apply (KU bs s k (set_store st s y) st' x) in E; [apply E|exact W|exact H1| |discriminate].
    rewrite present_row. unfold row_of; cbn. rewrite upd_eq.
    apply UpdateEntity_keys in Eu. destruct Eu as (Eu & _). rewrite Eu. exact Hp.
  - eapply delitem_keys; eassumption.
  - apply (keeps_set sch _ _ _ _ _ _ _ _ W) in E. apply (keys_stores st); [apply E|exact H].
  - apply (nav_delitem_cases sch _ _ _ _ _ _ W) in E.
    destruct E as [[-> _]|(_ & -> & _)]; [exact H|]. apply (keys_stores st); [reflexivity|exact H].
  - apply (keeps_rep order order_perm sch _ _ _ _ _ _ W) in E.
    apply (keys_stores st); [apply E|exact H].
  - unfold nav_insert in E.
    destruct (InsertEntity order sch no_filter _ n _ st) as [st1 r] eqn:E1.
    apply KI in E1; [|exact W|exact H|discriminate]. destruct E1 as [(W1 & H1 & _) _].
    destruct r as [t|y]; [|injection E as <- _; exact H1].
    apply (keeps_set sch _ _ _ _ _ _ _ _ W1) in E. apply (keys_stores st1); [apply E|exact H1].
Qed.

Lemma reach_keys P Q st : reach order sch P Q st -> keys_ok st.
Proof.
  induction 1 as [|st o fuel R IH _ _]; [intros s; constructor|].
  apply step_keys; [|exact IH]. apply (reach_base order order_perm sch _ _ _ R).
Qed.

Lemma generate_spec s ks st : forall l, generate s ks st = Ok l ->
  length l = length ks /\
  forall t row, In (t, row) l <-> In t ks /\ row_of st (s, t) = Some row.
Proof.
  induction ks as [|k ks IH]; intros l H; cbn [generate] in H.
  - injection H as <-. split; [reflexivity|]. intros t row. cbn. tauto.
  - destruct (dget k _) as [r|] eqn:E; [|discriminate].
    destruct (generate s ks st) as [l'|]; cbn [bind] in H; [|discriminate]. injection H as <-.
    destruct (IH l' eq_refl) as [L I']. split; [cbn; rewrite L; reflexivity|].
    intros t row. cbn [In]. rewrite I'. unfold row_of; cbn. split.
    + intros [[= <- <-]|[H1 H2]]; tauto.
    + intros [[<-|H1] H2]; [left; congruence|tauto].
Qed.

Lemma nav_iter_spec flt e k t row st l : wf st -> nav_end sch e ->
  nav_iter order sch flt e k st = Ok l ->
  (In (t, row) l <-> linked_at st e k t /\ row_of st (end_store sch (other e), t) = Some row /\
     match flt with Some f => f row = true | None => True end) /\
  nav_len order sch flt e k st = Ok (length l).
Proof.
  intros W _ H. unfold nav_len. rewrite H. unfold nav_iter in H.
  destruct (generate _ _ st) as [l0|] eqn:E; cbn [bind] in H; [|discriminate]. injection H as <-.
  apply generate_spec in E. destruct E as [L I'].
  assert (Hl : linked_at st e k t <-> In t (order (lookup st e k))).
  { rewrite In_order by exact order_perm. symmetry. apply (elink_linked st e k t W). }
  split.
  - rewrite filter_In, I', Hl. cbn. destruct flt as [f|]; cbn; tauto.
  - destruct flt as [f|]; cbn [bind]; [reflexivity|]. f_equal.
    assert (F : forall l : list (key * list value), filter (fun p => passes None (snd p)) l = l).
    { induction l as [|p l IH]; cbn; [reflexivity|]. f_equal; exact IH. }
    rewrite F, L. symmetry. apply Permutation_length, order_perm.
Qed.

Lemma nav_iter_total flt e k st : wf st -> nav_end sch e ->
  (forall e k t, (fst e < nassocs sch)%nat -> elink st e k t ->
    present st (end_store sch e, k) /\ present st (end_store sch (other e), t)) ->
  exists l, nav_iter order sch flt e k st = Ok l.
Proof.
  intros W [He _] N. unfold nav_iter.
  assert (G : forall ks, (forall t, In t ks -> elink st e k t) ->
            exists l, generate (end_store sch (other e)) ks st = Ok l).
  { induction ks as [|t ks IH]; intros Hk; [exists []; reflexivity|]. cbn [generate].
    destruct (N e k t He (Hk t (or_introl eq_refl))) as [_ [row Hr]]. cbn in Hr. rewrite Hr.
    destruct IH as [l' ->]; [intros u Hu; apply Hk; right; exact Hu|].
    exists ((t, row) :: l'). reflexivity. }
  destruct (G (order (lookup st e k))) as [l ->].
  - intros t Ht. apply In_order in Ht; [exact Ht|exact order_perm].
  - exists (filter (fun p => passes flt (snd p)) l). reflexivity.
Qed.

End Keys.
