(** Proofs about association indexes and entity stores. *)
From Verif Require Import Py Memds MemdsSpec.
From Coq Require Import Lia Permutation.

(** ** Keys *)

Lemma atom_eqb_eq a b : atom_eqb a b = true <-> a = b.
Proof.
  destruct a, b; cbn; try (split; discriminate).
  - rewrite Z.eqb_eq. split; congruence.
  - rewrite str_eqb_eq. split; congruence.
Qed.

Lemma atoms_eqb_eq l m : atoms_eqb l m = true <-> l = m.
Proof.
  revert m; induction l as [|a l IH]; intros [|b m]; cbn; try (split; congruence).
  rewrite andb_true_iff, atom_eqb_eq, IH. split; [intros [-> ->]; reflexivity|].
  injection 1 as -> ->. split; reflexivity.
Qed.

Lemma key_eqb_eq a b : key_eqb a b = true <-> a = b.
Proof.
  destruct a, b; cbn; try (split; discriminate).
  - rewrite atom_eqb_eq. split; congruence.
  - rewrite atoms_eqb_eq. split; congruence.
Qed.

Lemma key_eqb_refl a : key_eqb a a = true.
Proof. apply key_eqb_eq; reflexivity. Qed.

Lemma key_eqb_spec a b : Bool.reflect (a = b) (key_eqb a b).
Proof.
  destruct (key_eqb a b) eqn:E; constructor; [apply key_eqb_eq; exact E|].
  intros H; apply key_eqb_eq in H; congruence.
Qed.

Lemma key_eq_dec (a b : key) : {a = b} + {a <> b}.
Proof. destruct (key_eqb_spec a b); [left|right]; assumption. Qed.

Lemma kmem_In k l : kmem k l = true <-> In k l.
Proof.
  unfold kmem. rewrite existsb_exists. split.
  - intros (x & Hx & E). apply key_eqb_eq in E. subst; exact Hx.
  - intros H. exists k. split; [exact H|apply key_eqb_refl].
Qed.

Lemma kmem_false k l : kmem k l = false <-> ~ In k l.
Proof. rewrite <- kmem_In. destruct (kmem k l); split; congruence. Qed.

Lemma kmem_spec k l : Bool.reflect (In k l) (kmem k l).
Proof. destruct (kmem k l) eqn:E; constructor; [apply kmem_In|apply kmem_false]; exact E. Qed.

(** ** Sets *)

Lemma In_sadd x k l : In x (sadd k l) <-> x = k \/ In x l.
Proof.
  unfold sadd. destruct (kmem_spec k l) as [H|H].
  - split; [tauto|intros [->|]; assumption].
  - rewrite in_app_iff; cbn. intuition congruence.
Qed.

Lemma NoDup_snoc {A} (l : list A) x : NoDup l -> ~ In x l -> NoDup (l ++ [x]).
Proof.
  induction l as [|a l IH]; cbn; intros H Hx.
  - constructor; [intros []|constructor].
  - apply NoDup_cons_iff in H as [Ha Hl]. constructor.
    + rewrite in_app_iff; cbn. intros [?|[?|[]]]; [tauto|]. apply Hx. left; congruence.
    + apply IH; tauto.
Qed.

Lemma NoDup_sadd k l : NoDup l -> NoDup (sadd k l).
Proof.
  unfold sadd. destruct (kmem_spec k l) as [H|H]; intros Hl; [exact Hl|].
  apply NoDup_snoc; assumption.
Qed.

Lemma In_sdiscard x k l : In x (sdiscard k l) <-> In x l /\ x <> k.
Proof.
  unfold sdiscard. rewrite filter_In. destruct (key_eqb_spec k x) as [->|H]; cbn; intuition congruence.
Qed.

Lemma NoDup_sdiscard k l : NoDup l -> NoDup (sdiscard k l).
Proof. apply NoDup_filter. Qed.

(** ** Dictionaries *)

Lemma dget_dset {A} k k' (a : A) d :
  dget k' (dset k a d) = if key_eqb k' k then Some a else dget k' d.
Proof.
  induction d as [|[k1 a1] d IH]; cbn.
  - reflexivity.
  - destruct (key_eqb_spec k k1) as [->|H1]; cbn.
    + destruct (key_eqb_spec k' k1); reflexivity.
    + rewrite IH. destruct (key_eqb_spec k' k1) as [->|H2]; [|reflexivity].
      destruct (key_eqb_spec k1 k) as [->|]; [congruence|reflexivity].
Qed.

Lemma dget_ddel {A} k k' (d : dict A) :
  dget k' (ddel k d) = if key_eqb k' k then None else dget k' d.
Proof.
  unfold ddel. induction d as [|[k1 a1] d IH]; cbn.
  - destruct (key_eqb k' k); reflexivity.
  - destruct (key_eqb_spec k k1) as [->|H1]; cbn.
    + rewrite IH. destruct (key_eqb_spec k' k1); reflexivity.
    + rewrite IH. destruct (key_eqb_spec k' k1) as [->|H2]; [|reflexivity].
      destruct (key_eqb_spec k1 k) as [->|]; [congruence|reflexivity].
Qed.

Lemma dget_In {A} k (d : dict A) a : dget k d = Some a -> In (k, a) d.
Proof.
  induction d as [|[k1 a1] d IH]; cbn; [discriminate|].
  destruct (key_eqb_spec k k1) as [->|]; [injection 1 as ->; left; reflexivity|].
  intros H; right; apply IH, H.
Qed.

Lemma dget_None {A} k (d : dict A) : dget k d = None <-> ~ In k (map fst d).
Proof.
  induction d as [|[k1 a1] d IH]; cbn; [tauto|].
  destruct (key_eqb_spec k k1) as [->|H].
  - split; [discriminate|intros H; exfalso; apply H; left; reflexivity].
  - rewrite IH. intuition congruence.
Qed.

Lemma dmem_In {A} k (d : dict A) : dmem k d = true <-> In k (map fst d).
Proof.
  unfold dmem. destruct (dget k d) eqn:E.
  - split; [|reflexivity]. intros _. apply dget_In in E.
    apply (in_map fst) in E. exact E.
  - apply dget_None in E. split; [discriminate|tauto].
Qed.

(** ** Association indexes *)

Definition setof (k : key) (d : dict (list key)) : list key :=
  match dget k d with Some l => l | None => [] end.

Definition wf_index (ix : assocIndex) : Prop :=
  (forall a b, In b (GetLinksFrom ix a) <-> In a (GetLinksTo ix b)) /\
  (forall a, NoDup (GetLinksFrom ix a)) /\ (forall b, NoDup (GetLinksTo ix b)).

Lemma wf_empty : wf_index emptyIndex.
Proof. split; [|split]; cbn; try tauto; intros; constructor. Qed.

Lemma setof_link_in a b d k :
  setof k (link_in a b d) = if key_eqb k a then sadd b (setof a d) else setof k d.
Proof. unfold setof, link_in. rewrite dget_dset. destruct (key_eqb k a); reflexivity. Qed.

Lemma setof_link_out a b d k :
  setof k (link_out a b d) = if key_eqb k a then sdiscard b (setof a d) else setof k d.
Proof.
  unfold setof, link_out. destruct (dget a d) as [l|] eqn:E.
  - rewrite dget_dset. destruct (key_eqb k a); reflexivity.
  - destruct (key_eqb_spec k a) as [->|]; [rewrite E; reflexivity|reflexivity].
Qed.

Lemma setof_hook k ks : forall d,
  NoDup ks -> (forall t, In t ks -> In k (setof t d)) ->
  exists d', hook_loop k ks d = (d', true) /\
    forall t, setof t d' = if kmem t ks then sdiscard k (setof t d) else setof t d.
Proof.
  induction ks as [|t ks IH]; intros d Hnd Hin; cbn [hook_loop].
  - exists d. split; [reflexivity|]. intros t; reflexivity.
  - apply NoDup_cons_iff in Hnd as [Ht Hnd].
    pose proof (Hin t (or_introl eq_refl)) as Hk. unfold setof in Hk.
    destruct (dget t d) as [l|] eqn:E; [|destruct Hk].
    apply kmem_In in Hk. rewrite Hk.
    set (d1 := match sdiscard k l with [] => ddel t d | l' => dset t l' d end).
    assert (H1 : forall u, setof u d1 = if key_eqb u t then sdiscard k (setof t d) else setof u d).
    { intros u. unfold d1, setof. rewrite E.
      destruct (sdiscard k l) as [|y ys]; [rewrite dget_ddel|rewrite dget_dset];
        destruct (key_eqb u t); reflexivity. }
    destruct (IH d1 Hnd) as (d' & Hd & Hs).
    { intros u Hu. rewrite H1. destruct (key_eqb_spec u t) as [->|]; [tauto|].
      apply Hin. right; exact Hu. }
    exists d'. split; [exact Hd|]. intros u. rewrite Hs, H1.
    cbn [kmem existsb]. change (existsb (key_eqb u) ks) with (kmem u ks).
    destruct (key_eqb_spec u t) as [->|]; cbn [orb]; [|reflexivity].
    apply kmem_false in Ht. rewrite Ht. reflexivity.
Qed.

Lemma linked_AddLink ix a b x y : wf_index ix ->
  In y (GetLinksFrom (AddLink ix a b) x) <-> (x = a /\ y = b) \/ In y (GetLinksFrom ix x).
Proof.
  intros _. change (GetLinksFrom (AddLink ix a b) x) with (setof x (link_in a b (idx ix))).
  change (GetLinksFrom ix x) with (setof x (idx ix)). rewrite setof_link_in.
  destruct (key_eqb_spec x a) as [->|]; [rewrite In_sadd; tauto|tauto].
Qed.

Lemma wf_AddLink ix a b : wf_index ix -> wf_index (AddLink ix a b).
Proof.
  intros (H1 & H2 & H3). split; [|split].
  - intros x y.
    change (GetLinksFrom (AddLink ix a b) x) with (setof x (link_in a b (idx ix))).
    change (GetLinksTo (AddLink ix a b) y) with (setof y (link_in b a (rdx ix))).
    rewrite !setof_link_in. specialize (H1 x y).
    change (GetLinksFrom ix x) with (setof x (idx ix)) in H1.
    change (GetLinksTo ix y) with (setof y (rdx ix)) in H1.
    destruct (key_eqb_spec x a) as [->|], (key_eqb_spec y b) as [->|]; rewrite ?In_sadd; tauto.
  - intros x. change (GetLinksFrom (AddLink ix a b) x) with (setof x (link_in a b (idx ix))).
    rewrite setof_link_in. destruct (key_eqb x a); [apply NoDup_sadd|]; apply H2.
  - intros x. change (GetLinksTo (AddLink ix a b) x) with (setof x (link_in b a (rdx ix))).
    rewrite setof_link_in. destruct (key_eqb x b); [apply NoDup_sadd|]; apply H3.
Qed.

Lemma linked_RemoveLink ix a b x y :
  In y (GetLinksFrom (RemoveLink ix a b) x) <-> ~ (x = a /\ y = b) /\ In y (GetLinksFrom ix x).
Proof.
  change (GetLinksFrom (RemoveLink ix a b) x) with (setof x (link_out a b (idx ix))).
  change (GetLinksFrom ix x) with (setof x (idx ix)). rewrite setof_link_out.
  destruct (key_eqb_spec x a) as [->|]; [rewrite In_sdiscard; tauto|tauto].
Qed.

Lemma wf_RemoveLink ix a b : wf_index ix -> wf_index (RemoveLink ix a b).
Proof.
  intros (H1 & H2 & H3). split; [|split].
  - intros x y.
    change (GetLinksFrom (RemoveLink ix a b) x) with (setof x (link_out a b (idx ix))).
    change (GetLinksTo (RemoveLink ix a b) y) with (setof y (link_out b a (rdx ix))).
    rewrite !setof_link_out. specialize (H1 x y).
    change (GetLinksFrom ix x) with (setof x (idx ix)) in H1.
    change (GetLinksTo ix y) with (setof y (rdx ix)) in H1.
    destruct (key_eqb_spec x a) as [->|], (key_eqb_spec y b) as [->|]; rewrite ?In_sdiscard; tauto.
  - intros x. change (GetLinksFrom (RemoveLink ix a b) x) with (setof x (link_out a b (idx ix))).
    rewrite setof_link_out. destruct (key_eqb x a); [apply NoDup_sdiscard|]; apply H2.
  - intros x. change (GetLinksTo (RemoveLink ix a b) x) with (setof x (link_out b a (rdx ix))).
    rewrite setof_link_out. destruct (key_eqb x b); [apply NoDup_sdiscard|]; apply H3.
Qed.

Lemma DeleteHook_views ix k : wf_index ix ->
  (forall a, GetLinksFrom (DeleteHook ix k) a = if key_eqb a k then [] else GetLinksFrom ix a) /\
  (forall b, GetLinksTo (DeleteHook ix k) b = sdiscard k (GetLinksTo ix b)).
Proof.
  intros (H1 & H2 & H3). unfold DeleteHook.
  assert (Hdisc : forall b, ~ In b (GetLinksFrom ix k) ->
            sdiscard k (GetLinksTo ix b) = GetLinksTo ix b).
  { intros b Hb. rewrite H1 in Hb. unfold sdiscard.
    induction (GetLinksTo ix b) as [|c l IH]; cbn; [reflexivity|]. cbn in Hb.
    destruct (key_eqb_spec k c) as [->|]; [exfalso; tauto|]. cbn. f_equal. apply IH. tauto. }
  destruct (dget k (idx ix)) as [ks|] eqn:E.
  - assert (Eks : GetLinksFrom ix k = ks) by (unfold GetLinksFrom; rewrite E; reflexivity).
    destruct (setof_hook k ks (rdx ix)) as (d' & Hd & Hs).
    { rewrite <- Eks. apply H2. }
    { intros t Ht. change (In k (GetLinksTo ix t)). rewrite <- H1, Eks. exact Ht. }
    rewrite Hd. split.
    + intros a. unfold GetLinksFrom; cbn [idx]. rewrite dget_ddel.
      destruct (key_eqb a k); reflexivity.
    + intros b. change (setof b d' = sdiscard k (GetLinksTo ix b)). rewrite Hs.
      change (setof b (rdx ix)) with (GetLinksTo ix b).
      destruct (kmem_spec b ks) as [H|H]; [reflexivity|]. symmetry. apply Hdisc.
      rewrite Eks. exact H.
  - assert (Eks : GetLinksFrom ix k = []) by (unfold GetLinksFrom; rewrite E; reflexivity).
    split.
    + intros a. destruct (key_eqb_spec a k) as [->|]; [exact Eks|reflexivity].
    + intros b. symmetry; apply Hdisc. rewrite Eks. intros [].
Qed.

Lemma wf_DeleteHook ix k : wf_index ix -> wf_index (DeleteHook ix k).
Proof.
  intros W. destruct (DeleteHook_views ix k W) as [Hf Ht]. destruct W as (H1 & H2 & H3).
  split; [|split].
  - intros a b. rewrite Hf, Ht, In_sdiscard, <- H1.
    destruct (key_eqb_spec a k); cbn; tauto.
  - intros a. rewrite Hf. destruct (key_eqb a k); [constructor|apply H2].
  - intros b. rewrite Ht. apply NoDup_sdiscard, H3.
Qed.

Lemma linked_DeleteHook ix k a b : wf_index ix ->
  In b (GetLinksFrom (DeleteHook ix k) a) <-> a <> k /\ In b (GetLinksFrom ix a).
Proof.
  intros W. destruct (DeleteHook_views ix k W) as [Hf _]. rewrite Hf.
  destruct (key_eqb_spec a k); cbn; tauto.
Qed.

(** The reverse hook is the hook of the reversed index. *)
Definition flip (ix : assocIndex) : assocIndex := mkIndex (rdx ix) (idx ix).

Lemma flip_hook ix k : ReverseDeleteHook ix k = flip (DeleteHook (flip ix) k).
Proof.
  unfold ReverseDeleteHook, DeleteHook, flip. destruct ix as [i r]. cbn.
  destruct (dget k r) as [ks|]; [|reflexivity].
  destruct (hook_loop k ks i); reflexivity.
Qed.

Lemma wf_flip ix : wf_index ix -> wf_index (flip ix).
Proof.
  intros (H1 & H2 & H3). split; [|split].
  - intros a b. change (In b (GetLinksTo ix a) <-> In a (GetLinksFrom ix b)).
    symmetry; apply H1.
  - exact H3.
  - exact H2.
Qed.

Lemma wf_ReverseDeleteHook ix k : wf_index ix -> wf_index (ReverseDeleteHook ix k).
Proof. intros W. rewrite flip_hook. apply wf_flip, wf_DeleteHook, wf_flip, W. Qed.

Lemma linked_ReverseDeleteHook ix k a b : wf_index ix ->
  In b (GetLinksFrom (ReverseDeleteHook ix k) a) <-> b <> k /\ In b (GetLinksFrom ix a).
Proof.
  intros W. rewrite flip_hook.
  change (In b (GetLinksTo (DeleteHook (flip ix) k) a) <-> b <> k /\ In b (GetLinksFrom ix a)).
  destruct (DeleteHook_views (flip ix) k (wf_flip _ W)) as [_ Ht]. rewrite Ht, In_sdiscard.
  change (GetLinksTo (flip ix) a) with (GetLinksFrom ix a). tauto.
Qed.

Lemma wf_do_lop ix o : wf_index ix -> wf_index (do_lop ix o).
Proof.
  destruct o; cbn; [apply wf_AddLink|apply wf_RemoveLink|apply wf_DeleteHook|apply wf_ReverseDeleteHook].
Qed.

Lemma index_refines h :
  let ix := fold_right (fun o ix => do_lop ix o) emptyIndex h in
  wf_index ix /\ forall a b, In b (GetLinksFrom ix a) <-> linked_after h a b.
Proof.
  induction h as [|o h IH]; cbn [fold_right].
  - split; [apply wf_empty|]. intros a b; cbn; tauto.
  - destruct IH as [W IH]. split; [apply wf_do_lop, W|]. intros a b.
    destruct o; cbn [do_lop linked_after]; rewrite <- IH.
    + apply linked_AddLink, W.
    + apply linked_RemoveLink.
    + apply linked_DeleteHook, W.
    + apply linked_ReverseDeleteHook, W.
Qed.

(** ** Stores *)

Lemma map_fst_dset {A} k (a : A) d :
  map fst (dset k a d) = if dmem k d then map fst d else map fst d ++ [k].
Proof.
  induction d as [|[k1 a1] d IH]; cbn; [reflexivity|].
  unfold dmem; cbn. destruct (key_eqb_spec k k1) as [->|H]; cbn; [reflexivity|].
  rewrite IH. unfold dmem. destruct (dget k d); reflexivity.
Qed.

Lemma map_fst_ddel {A} k (d : dict A) : map fst (ddel k d) = sdiscard k (map fst d).
Proof.
  induction d as [|[k1 a1] d IH]; cbn; [reflexivity|].
  destruct (key_eqb k k1); cbn; [exact IH|f_equal; exact IH].
Qed.

Lemma next_loop_ok d : forall fuel n x,
  next_loop fuel n d = Ok x -> (n <= x) /\ dmem (KOne (AInt x)) d = false.
Proof.
  induction fuel as [|f IH]; cbn; [discriminate|]. intros n x.
  destruct (dmem (KOne (AInt n)) d) eqn:E.
  - intros H. apply IH in H. lia.
  - injection 1 as ->. split; [lia|exact E].
Qed.

Lemma next_loop_total (d : dict (list value)) : forall fuel (l : list key) n,
  (forall m, n <= m -> dmem (KOne (AInt m)) d = true -> In (KOne (AInt m)) l) ->
  (length l < fuel)%nat -> exists x, next_loop fuel n d = Ok x.
Proof.
  induction fuel as [|f IH]; intros l n Hl Hf; [lia|]. cbn.
  destruct (dmem (KOne (AInt n)) d) eqn:E; [|eexists; reflexivity].
  assert (Hn : In (KOne (AInt n)) l) by (apply Hl; [lia|exact E]).
  apply (IH (remove key_eq_dec (KOne (AInt n)) l)).
  - intros m Hm Hd. apply in_in_remove; [|apply Hl; [lia|exact Hd]].
    intros Heq. injection Heq as ->. lia.
  - pose proof (remove_length_lt key_eq_dec l _ Hn). lia.
Qed.

Lemma NextKey_fresh num s z s' : NextKey num s = Ok (z, s') ->
  dmem (KOne (AInt z)) (data s) = false /\ data s' = data s /\ deleting s' = deleting s
  /\ streams s' = streams s.
Proof.
  unfold NextKey. intros H.
  destruct (match nextKey s with Some n => Ok n | None => _ end) as [n|] eqn:E;
    cbn [bind] in H; [|discriminate].
  destruct (next_loop (S (length (data s))) n (data s)) as [x|] eqn:El; cbn [bind] in H;
    [|discriminate].
  injection H as <- <-. apply next_loop_ok in El. cbn. repeat split. apply El.
Qed.

Lemma NextKey_total num s : nextKey s <> None \/ num = true ->
  exists z s', NextKey num s = Ok (z, s').
Proof.
  intros H. unfold NextKey.
  destruct (match nextKey s with Some n => Ok n | None => _ end) as [n|e] eqn:E; cbn [bind].
  2: { exfalso. destruct (nextKey s) as [m|]; [discriminate|]. destruct H as [H| ->]; [congruence|].
       cbn in E. destruct (data s); discriminate. }
  destruct (next_loop_total (data s) (S (length (data s))) (map fst (data s)) n) as [x Hx].
  - intros m _ Hm. apply dmem_In, Hm.
  - rewrite map_length. lia.
  - rewrite Hx. cbn. eexists _, _. reflexivity.
Qed.
