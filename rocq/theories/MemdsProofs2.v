(** Proofs about the deletion of entities. *)
From Verif Require Import Py Memds MemdsSpec MemdsProofs.
From Coq Require Import Lia Permutation.

(** ** Views of a state *)

Definition wf (st : state) : Prop := forall i, wf_index (links st i).
Definition isdel (st : state) (x : nat * key) : Prop :=
  In (snd x) (deleting (stores st (fst x))).
Definition gone (st st' : state) (x : nat * key) : Prop := present st x /\ ~ present st' x.

Lemma present_row st x : present st x <-> row_of st x <> None.
Proof.
  unfold present, row_of. destruct (dget _ _) as [r|]; split.
  - discriminate.
  - intros _. exists r. reflexivity.
  - intros [r H]; discriminate.
  - congruence.
Qed.

Lemma present_dmem st s k : present st (s, k) <-> dmem k (data (stores st s)) = true.
Proof.
  unfold present, dmem; cbn. destruct (dget _ _) as [r|]; split; try reflexivity; try discriminate.
  - intros _. exists r. reflexivity.
  - intros [r H]; discriminate.
Qed.

Lemma present_dec st x : {present st x} + {~ present st x}.
Proof.
  destruct (row_of st x) eqn:E; [left|right]; rewrite present_row, E; congruence.
Qed.

Lemma isdel_dec st x : {isdel st x} + {~ isdel st x}.
Proof. apply (in_dec key_eq_dec). Qed.

Lemma linked_dec st i a b : {linked st i a b} + {~ linked st i a b}.
Proof. apply (in_dec key_eq_dec). Qed.

Lemma present_ext st st' x : row_of st x = row_of st' x -> present st x <-> present st' x.
Proof. intros H. rewrite !present_row, H. reflexivity. Qed.

Lemma upd_eq {A} (f : nat -> A) i a : upd f i a i = a.
Proof. unfold upd. rewrite Nat.eqb_refl. reflexivity. Qed.
Lemma upd_neq {A} (f : nat -> A) i j a : i <> j -> upd f i a j = f j.
Proof. intros H. unfold upd. apply Nat.eqb_neq in H. rewrite H. reflexivity. Qed.
Lemma upd_case {A} (f : nat -> A) i j a :
  upd f i a j = if Nat.eqb i j then a else f j.
Proof. reflexivity. Qed.

Section Del.
Variable order : list key -> list key.
Hypothesis order_perm : forall l, Permutation (order l) l.
Variable sch : schema.

Lemma In_order x l : In x (order l) <-> In x l.
Proof.
  split; intros H; [exact (Permutation_in _ (order_perm l) H)|].
  exact (Permutation_in _ (Permutation_sym (order_perm l)) H).
Qed.

(** Links seen from an end. *)
Definition elink (st : state) (e : end_) (k t : key) : Prop := In t (lookup st e k).

Lemma elink_linked st e k t : wf st ->
  elink st e k t <-> if snd e then linked st (fst e) t k else linked st (fst e) k t.
Proof.
  intros W. unfold elink, lookup, linked. destruct (snd e); [|reflexivity].
  symmetry. apply W.
Qed.

Lemma elink_other st e k t : wf st -> elink st e k t <-> elink st (other e) t k.
Proof.
  intros W. rewrite !elink_linked by exact W. unfold other; cbn. destruct (snd e); reflexivity.
Qed.

Lemma requires_ends st x y : wf st ->
  requires sch st x y <->
  exists e k t, (fst e < nassocs sch)%nat /\ elink st e k t /\ end_mult sch e = One /\
    x = (end_store sch e, k) /\ y = (end_store sch (other e), t).
Proof.
  intros W. split.
  - intros (i & a & b & Hi & Hl & [(-> & -> & Hm)|(-> & -> & Hm)]).
    + exists (i, false), a, b. rewrite elink_linked by exact W. cbn. tauto.
    + exists (i, true), b, a. rewrite elink_linked by exact W. cbn. tauto.
  - intros ((i & r) & k & t & Hi & Hl & Hm & -> & ->). rewrite elink_linked in Hl by exact W.
    cbn in *. destruct r; cbn in *.
    + exists i, t, k. split; [exact Hi|]. split; [exact Hl|]. right. repeat split; assumption.
    + exists i, k, t. split; [exact Hi|]. split; [exact Hl|]. left. repeat split; assumption.
Qed.

Lemma requires_mono st st' x y :
  (forall i a b, linked st' i a b -> linked st i a b) ->
  requires sch st' x y -> requires sch st x y.
Proof.
  intros H (i & a & b & Hi & Hl & Hc). exists i, a, b. split; [exact Hi|]. split; [|exact Hc].
  apply H, Hl.
Qed.

Lemma dependent_mono st st' x y :
  (forall i a b, linked st' i a b -> linked st i a b) ->
  dependent sch st' x y -> dependent sch st x y.
Proof.
  intros H D. induction D as [|y z D IH R]; [apply dep_self|].
  apply (dep_step _ _ _ y); [exact IH|]. revert R. apply requires_mono, H.
Qed.

Lemma dependent_trans st x y z :
  dependent sch st x y -> dependent sch st y z -> dependent sch st x z.
Proof.
  intros H D. induction D as [|u v D IH R]; [exact H|].
  apply (dep_step _ _ _ u); assumption.
Qed.

(** No link of [st] has [x] at one of its ends. *)
Definition untouched (st : state) (x : nat * key) : Prop :=
  forall i a b, (i < nassocs sch)%nat -> linked st i a b -> src sch i a <> x /\ dst sch i b <> x.

(** What holds of a deletion even if it fails. *)
Record good (st st' : state) : Prop := mkGood {
  g_wf : wf st';
  g_row : forall x, present st' x -> row_of st' x = row_of st x;
  g_del : forall s, deleting (stores st' s) = deleting (stores st s);
  g_link : forall i a b, linked st' i a b -> linked st i a b;
  g_keep : forall x, isdel st x -> present st x -> present st' x;
  g_clean : forall x, gone st st' x -> untouched st' x
}.

Lemma good_present st st' x : good st st' -> present st' x -> present st x.
Proof.
  intros G H. pose proof (g_row _ _ G _ H) as E. apply (present_ext _ _ _ E), H.
Qed.

Lemma good_isdel st st' x : good st st' -> isdel st' x <-> isdel st x.
Proof. intros G. unfold isdel. rewrite (g_del _ _ G). reflexivity. Qed.

Lemma good_refl st : wf st -> good st st.
Proof.
  intros W. split; try tauto; try reflexivity. intros x [H1 H2]; contradiction.
Qed.

Lemma untouched_mono st st' x :
  (forall i a b, linked st' i a b -> linked st i a b) -> untouched st x -> untouched st' x.
Proof. intros H U i a b Hi Hl. apply (U i a b Hi), H, Hl. Qed.

Lemma good_trans st1 st2 st3 : good st1 st2 -> good st2 st3 -> good st1 st3.
Proof.
  intros G H. split.
  - apply H.
  - intros x Hx. rewrite (g_row _ _ H _ Hx). apply (g_row _ _ G).
    apply (good_present _ _ _ H), Hx.
  - intros s. rewrite (g_del _ _ H). apply G.
  - intros i a b Hl. apply (g_link _ _ G), (g_link _ _ H), Hl.
  - intros x Hd Hp. apply (g_keep _ _ H); [apply (good_isdel _ _ _ G), Hd|].
    apply (g_keep _ _ G); assumption.
  - intros x [H1 H3]. destruct (present_dec st2 x) as [H2|H2].
    + apply (g_clean _ _ H). split; assumption.
    + apply (untouched_mono st2); [apply H|]. apply (g_clean _ _ G). split; assumption.
Qed.

Lemma gone_trans st1 st2 st3 x : good st1 st2 -> good st2 st3 ->
  gone st1 st3 x <-> gone st1 st2 x \/ gone st2 st3 x.
Proof.
  intros G H. unfold gone. pose proof (good_present _ _ x G). pose proof (good_present _ _ x H).
  destruct (present_dec st2 x); tauto.
Qed.

(** *** Removing one link *)

Lemma lookup_remove st e k t u v : wf st ->
  elink (remove_link st e k t) e u v <-> ~ (u = k /\ v = t) /\ elink st e u v.
Proof.
  intros W. assert (W' : wf (remove_link st e k t)).
  { intros i. unfold remove_link; cbn. unfold upd. destruct (Nat.eqb (fst e) i); [|apply W].
    destruct (snd e); apply wf_RemoveLink, W. }
  rewrite !elink_linked by assumption. unfold linked, remove_link; cbn. rewrite upd_eq.
  destruct (snd e); rewrite linked_RemoveLink; tauto.
Qed.

Lemma linked_remove st e k t i a b :
  linked (remove_link st e k t) i a b <->
  linked st i a b /\ ~ (i = fst e /\ (if snd e then a = t /\ b = k else a = k /\ b = t)).
Proof.
  unfold linked, remove_link; cbn. rewrite upd_case.
  destruct (Nat.eqb_spec (fst e) i) as [<-|H].
  - destruct (snd e); rewrite linked_RemoveLink; tauto.
  - split; [intros; split; [assumption|]; intros [? _]; congruence|tauto].
Qed.

Lemma good_remove st e k t : wf st -> good st (remove_link st e k t).
Proof.
  intros W. split.
  - intros i. unfold remove_link; cbn. unfold upd. destruct (Nat.eqb (fst e) i); [|apply W].
    destruct (snd e); apply wf_RemoveLink, W.
  - reflexivity.
  - reflexivity.
  - intros i a b Hl. apply linked_remove in Hl. apply Hl.
  - intros x _ Hx. exact Hx.
  - intros x [H1 H2]. contradiction.
Qed.

(** *** Deleting a stored entity *)

Lemma hooks_index s k st i : wf st -> wf_index (hooks sch s k st i) /\
  forall a b, In b (GetLinksFrom (hooks sch s k st i) a) <->
    linked st i a b /\
    ((i < nassocs sch)%nat -> src sch i a <> (s, k) /\ dst sch i b <> (s, k)).
Proof.
  intros W. unfold hooks, linked, src, dst. pose proof (W i) as Wi.
  destruct (Nat.ltb_spec i (nassocs sch)) as [Hi|Hi].
  2: { split; [exact Wi|]. intros a b. split; [intros H; split; [exact H|lia]|tauto]. }
  destruct (Nat.eqb_spec (a_from (assocs sch i)) s) as [E1|E1];
    destruct (Nat.eqb_spec (a_to (assocs sch i)) s) as [E2|E2].
  - pose proof (wf_DeleteHook _ k Wi) as W1.
    split; [apply wf_ReverseDeleteHook, W1|]. intros a b.
    rewrite linked_ReverseDeleteHook, linked_DeleteHook by assumption.
    rewrite E1, E2. split.
    + intros (Hb & Ha & Hl). split; [exact Hl|]. intros _. split; congruence.
    + intros (Hl & H). destruct (H Hi) as [Ha Hb]. repeat split; congruence || assumption.
  - split; [apply wf_DeleteHook, Wi|]. intros a b. rewrite linked_DeleteHook by assumption.
    rewrite E1. split.
    + intros (Ha & Hl). split; [exact Hl|]. intros _. split; congruence.
    + intros (Hl & H). destruct (H Hi) as [Ha Hb]. split; [congruence|exact Hl].
  - split; [apply wf_ReverseDeleteHook, Wi|]. intros a b.
    rewrite linked_ReverseDeleteHook by assumption.
    rewrite E2. split.
    + intros (Ha & Hl). split; [exact Hl|]. intros _. split; congruence.
    + intros (Hl & H). destruct (H Hi) as [Ha Hb]. split; [congruence|exact Hl].
  - split; [exact Wi|]. intros a b. split.
    + intros Hl. split; [exact Hl|]. intros _. split; congruence.
    + tauto.
Qed.

Lemma DeleteEntity_spec s k st st' x : wf st -> DeleteEntity sch s k st = (st', x) ->
  wf st' /\
  (forall i a b, linked st' i a b <-> linked st i a b /\
     ((i < nassocs sch)%nat -> src sch i a <> (s, k) /\ dst sch i b <> (s, k))) /\
  (forall y, row_of st' y = if key_eqb (snd y) k && Nat.eqb (fst y) s
                            then None else row_of st y) /\
  (forall s', deleting (stores st' s') = deleting (stores st s')) /\
  x = (if dmem k (data (stores st s)) then None else Some KeyError).
Proof.
  intros W. unfold DeleteEntity.
  destruct (dmem k (data (stores st s))) eqn:E; injection 1 as <- <-.
  - split; [|split; [|split; [|split; [|reflexivity]]]].
    + intros i. apply hooks_index, W.
    + intros i a b. apply (hooks_index s k st i W).
    + intros [s' k']; unfold row_of; cbn. rewrite upd_case, (Nat.eqb_sym s').
      destruct (Nat.eqb_spec s s') as [->|].
      * cbn. rewrite dget_ddel, andb_true_r. reflexivity.
      * rewrite andb_false_r. reflexivity.
    + intros s'; cbn. rewrite upd_case. destruct (Nat.eqb_spec s s') as [->|]; reflexivity.
  - split; [|split; [|split; [|split; [|reflexivity]]]].
    + intros i. apply hooks_index, W.
    + intros i a b. apply (hooks_index s k st i W).
    + intros [s' k']; unfold row_of; cbn. destruct (key_eqb_spec k' k) as [->|]; [|reflexivity].
      destruct (Nat.eqb_spec s' s) as [->|]; cbn; [|reflexivity].
      unfold dmem in E. destruct (dget k _); [discriminate|reflexivity].
    + reflexivity.
Qed.

(** *** Cascades *)

(** What holds of a deletion that succeeds, seen from the state in which it starts. *)
Record done (r : nat * key) (st st' : state) : Prop := mkDone {
  d_good : good st st';
  d_link : forall i a b, (i < nassocs sch)%nat -> linked st i a b ->
    linked st' i a b \/ gone st st' (src sch i a) \/ gone st st' (dst sch i b);
  d_closed : forall x y, gone st st' x -> requires sch st x y ->
    gone st st' y \/ isdel st y;
  d_reach : forall x, gone st st' x -> dependent sch st r x
}.

(** The same while the entity [r] is being deleted. *)
Record during (r : nat * key) (st st' : state) : Prop := mkDuring {
  u_good : good st st';
  u_link : forall i a b, (i < nassocs sch)%nat -> linked st i a b ->
    linked st' i a b \/ gone st st' (src sch i a) \/ gone st st' (dst sch i b) \/
    (src sch i a = r /\ isdel st (dst sch i b)) \/ (dst sch i b = r /\ isdel st (src sch i a));
  u_closed : forall x y, gone st st' x -> requires sch st x y ->
    gone st st' y \/ isdel st y;
  u_reach : forall x, gone st st' x -> dependent sch st r x
}.

Definition del_ok (del : nat -> key -> state -> state * option exn) : Prop :=
  forall s k st st' x, wf st -> del s k st = (st', x) ->
    good st st' /\
    (x = None -> (isdel st (s, k) /\ st' = st) \/ (gone st st' (s, k) /\ done (s, k) st st')).

Lemma src_dst_end e k t (b : bool) : b = snd e ->
  (if b then src sch (fst e) t else src sch (fst e) k) =
    (if b then (end_store sch (other e), t) else (end_store sch e, k)) /\
  (if b then dst sch (fst e) k else dst sch (fst e) t) =
    (if b then (end_store sch e, k) else (end_store sch (other e), t)).
Proof.
  intros ->. unfold src, dst, end_store, other; cbn. destruct (snd e); cbn; split; reflexivity.
Qed.

(** One step of the loop over linked entities. *)
Lemma during_step del e k t r st0 st st2 :
  del_ok del -> (fst e < nassocs sch)%nat -> r = (end_store sch e, k) ->
  during r st0 st -> isdel st0 r -> present st0 r ->
  requires sch st0 r (end_store sch (other e), t) ->
  del (end_store sch (other e)) t (remove_link st e k t) = (st2, None) ->
  during r st0 st2 /\
  (gone st0 st2 (end_store sch (other e), t) \/ isdel st0 (end_store sch (other e), t)).
Proof.
  intros Hdel He Er U Hr Hpr Hreq Hrun.
  set (y := (end_store sch (other e), t)) in *.
  pose proof (u_good _ _ _ U) as G. pose proof (g_wf _ _ G) as W.
  set (st1 := remove_link st e k t) in *.
  assert (G1 : good st st1) by (apply good_remove, W).
  assert (W1 : wf st1) by apply G1.
  destruct (Hdel _ _ _ _ _ W1 Hrun) as [G2 HN]. specialize (HN eq_refl).
  assert (G02 : good st0 st2) by (eapply good_trans; [exact G|eapply good_trans; eassumption]).
  assert (Hno : forall z, ~ gone st st1 z) by (intros z [A B]; exact (B A)).
  assert (Hgone : forall z, gone st0 st2 z <-> gone st0 st z \/ gone st1 st2 z).
  { intros z. rewrite (gone_trans st0 st st2) by (try exact G; eapply good_trans; eassumption).
    rewrite (gone_trans st st1 st2) by assumption. specialize (Hno z). tauto. }
  assert (Hrkeep : ~ gone st0 st2 r).
  { intros [_ A]. apply A, (g_keep _ _ G02); assumption. }
  assert (Hisdel1 : forall z, isdel st1 z <-> isdel st0 z).
  { intros z. rewrite (good_isdel st st1) by exact G1. apply good_isdel, G. }
  (* a link of [st] is kept in [st1] unless it joins [r] and [y] *)
  assert (Hcut : forall i a b, linked st i a b ->
            linked st1 i a b \/ (src sch i a = r /\ dst sch i b = y) \/
            (src sch i a = y /\ dst sch i b = r)).
  { intros i a b Hl. destruct (linked_dec st1 i a b) as [H|H]; [left; exact H|right].
    unfold st1 in H. rewrite linked_remove in H.
    destruct (Nat.eq_dec i (fst e)) as [->|Hi]; [|exfalso; apply H; split; [exact Hl|tauto]].
    subst r. unfold y, src, dst, end_store, other in *; cbn in *.
    destruct (snd e); cbn in *.
    - destruct (key_eq_dec a t) as [->|]; [|exfalso; apply H; split; [exact Hl|tauto]].
      destruct (key_eq_dec b k) as [->|]; [|exfalso; apply H; split; [exact Hl|tauto]].
      right. split; reflexivity.
    - destruct (key_eq_dec a k) as [->|]; [|exfalso; apply H; split; [exact Hl|tauto]].
      destruct (key_eq_dec b t) as [->|]; [|exfalso; apply H; split; [exact Hl|tauto]].
      left. split; reflexivity. }
  (* what the call does to the links and entities of [st1] *)
  assert (Hlink : forall i a b, (i < nassocs sch)%nat -> linked st1 i a b ->
            linked st2 i a b \/ gone st1 st2 (src sch i a) \/ gone st1 st2 (dst sch i b)).
  { destruct HN as [[_ ->]|[_ D]]; [tauto|apply D]. }
  assert (Hclosed : forall u v, gone st1 st2 u -> requires sch st1 u v ->
            gone st1 st2 v \/ isdel st1 v).
  { destruct HN as [[_ ->]|[_ D]]; [intros u v [A B]; contradiction|apply D]. }
  assert (Hreach : forall u, gone st1 st2 u -> dependent sch st1 y u).
  { destruct HN as [[_ ->]|[_ D]]; [intros u [A B]; contradiction|apply D]. }
  assert (Hy : gone st0 st2 y \/ isdel st0 y).
  { destruct HN as [[A _]|[A _]]; [right; apply Hisdel1, A|left; apply Hgone; right; exact A]. }
  split; [|exact Hy]. split.
  - exact G02.
  - intros i a b Hi Hl.
    destruct (u_link _ _ _ U i a b Hi Hl) as [H|[H|[H|H]]].
    + destruct (Hcut i a b H) as [H1|[[H1 H2]|[H1 H2]]].
      * destruct (Hlink i a b Hi H1) as [H2|[H2|H2]]; [tauto| |].
        -- right; left. apply Hgone; tauto.
        -- right; right; left. apply Hgone; tauto.
      * rewrite H1, H2. destruct Hy as [Hy|Hy]; [tauto|]. right; right; right; left. tauto.
      * rewrite H1, H2. destruct Hy as [Hy|Hy]; [tauto|]. right; right; right; right. tauto.
    + right; left. apply Hgone; tauto.
    + right; right; left. apply Hgone; tauto.
    + right; right; right. exact H.
  - intros u v Hu Hrq. apply Hgone in Hu. destruct Hu as [Hu|Hu].
    + destruct (u_closed _ _ _ U u v Hu Hrq) as [H|H]; [left; apply Hgone; tauto|tauto].
    + destruct Hrq as (i & a & b & Hi & Hl & Hc).
      assert (Hur : u <> r).
      { intros ->. apply Hrkeep, Hgone. right; exact Hu. }
      assert (Hu0 : ~ gone st0 st u).
      { intros [_ A]. apply A. destruct Hu as [B _]. exact (good_present _ _ _ G1 B). }
      assert (Hends : (src sch i a = u /\ dst sch i b = v) \/ (src sch i a = v /\ dst sch i b = u)).
      { destruct Hc as [(-> & -> & _)|(-> & -> & _)]; tauto. }
      destruct (u_link _ _ _ U i a b Hi Hl) as [H|H].
      * destruct (Hcut i a b H) as [H1|H1].
        -- assert (Hrq1 : requires sch st1 u v) by (exists i, a, b; tauto).
           destruct (Hclosed u v Hu Hrq1) as [H2|H2]; [left; apply Hgone; tauto|].
           right. apply Hisdel1, H2.
        -- assert (Hv : v = r) by (destruct Hends, H1; intuition congruence).
           right. rewrite Hv. exact Hr.
      * assert (gone st0 st v \/ isdel st0 v) as [H1|H1]; [|left; apply Hgone; tauto|tauto].
        destruct Hends as [[E1 E2]|[E1 E2]]; rewrite E1, E2 in H;
          destruct H as [H|[H|[[H1 H2]|[H1 H2]]]]; try tauto; try congruence;
            try (right; congruence || exact H2); right; rewrite H1; exact Hr.
  - intros u Hu. apply Hgone in Hu. destruct Hu as [Hu|Hu]; [apply U, Hu|].
    apply (dependent_trans _ _ y).
    + apply (dep_step _ _ _ r); [apply dep_self|exact Hreq].
    + apply (dependent_mono st0 st1); [|apply Hreach, Hu].
      intros i a b Hl. apply (g_link _ _ G), (g_link _ _ G1), Hl.
Qed.

(** The loop over linked entities. *)
Definition clinks del e k ks st :=
  cascade_links del (end_nav sch e) (fst e) (negb (snd e)) (end_store sch (other e)) k ks st.

Lemma clinks_cons del e k t ks st :
  clinks del e k (t :: ks) st =
    if negb (end_nav sch e) && negb (kmem t (deleting (stores st (end_store sch (other e)))))
    then (st, Some NavigationError)
    else match del (end_store sch (other e)) t (remove_link st e k t) with
         | (st, Some x) => (st, Some x)
         | (st, None) => clinks del e k ks st
         end.
Proof.
  unfold clinks; cbn [cascade_links]. unfold remove_link.
  destruct (snd e); cbn [negb]; reflexivity.
Qed.

Lemma clinks_good del e k ks : del_ok del -> forall st st' x, wf st ->
  clinks del e k ks st = (st', x) -> good st st'.
Proof.
  intros Hdel. induction ks as [|t ks IH]; intros st st' x W H.
  - injection H as <- _. apply good_refl, W.
  - rewrite clinks_cons in H. destruct (_ && _); [injection H as <- _; apply good_refl, W|].
    destruct (del _ t (remove_link st e k t)) as [st2 [y|]] eqn:E.
    + injection H as <- _. apply (good_trans _ (remove_link st e k t)); [apply good_remove, W|].
      eapply Hdel; [|exact E]. apply good_remove, W.
    + assert (G : good st st2).
      { apply (good_trans _ (remove_link st e k t)); [apply good_remove, W|].
        eapply Hdel; [|exact E]. apply good_remove, W. }
      apply (good_trans _ st2); [exact G|]. eapply IH; [apply G|exact H].
Qed.

Lemma gone_later st0 st st' x : good st0 st -> good st st' -> gone st0 st x -> gone st0 st' x.
Proof. intros G H A. apply (gone_trans st0 st st'); [exact G|exact H|tauto]. Qed.

Lemma clinks_done del e k r st0 ks :
  del_ok del -> (fst e < nassocs sch)%nat -> r = (end_store sch e, k) ->
  isdel st0 r -> present st0 r ->
  (forall t, In t ks -> requires sch st0 r (end_store sch (other e), t)) ->
  forall st st', during r st0 st -> clinks del e k ks st = (st', None) ->
  during r st0 st' /\ good st st' /\
  forall t, In t ks -> gone st0 st' (end_store sch (other e), t) \/
                       isdel st0 (end_store sch (other e), t).
Proof.
  intros Hdel He Er Hr Hpr. induction ks as [|t ks IH]; intros Hreq st st' U H.
  - injection H as <-. split; [exact U|]. split; [apply good_refl, (u_good _ _ _ U)|].
    intros t [].
  - rewrite clinks_cons in H. destruct (_ && _); [discriminate|].
    destruct (del _ t (remove_link st e k t)) as [st2 [y|]] eqn:E; [discriminate|].
    assert (W : wf st) by apply (u_good _ _ _ U).
    assert (Gs : good st st2).
    { apply (good_trans _ (remove_link st e k t)); [apply good_remove, W|].
      eapply Hdel; [|exact E]. apply good_remove, W. }
    destruct (during_step del e k t r st0 st st2 Hdel He Er U Hr Hpr) as [U2 Ht];
      [apply Hreq; left; reflexivity|exact E|].
    destruct (IH (fun u Hu => Hreq u (or_intror Hu)) st2 st' U2 H) as (U' & G' & Hks).
    split; [exact U'|]. split; [eapply good_trans; eassumption|].
    intros u [<-|Hu]; [|apply Hks, Hu].
    destruct Ht as [Ht|Ht]; [left|right; exact Ht].
    eapply gone_later; [apply (u_good _ _ _ U2)|exact G'|exact Ht].
Qed.

(** The loop over the ends. *)
Definition cends del k es st :=
  fold_left (fun acc e =>
    match acc with
    | (st, Some x) => (st, Some x)
    | (st, None) =>
        if mult_eqb (end_mult sch e) One then clinks del e k (order (lookup st e k)) st
        else (st, None)
    end) es (st, None).

Lemma cascade_ends_fold del s k es : no_self sch ->
  (forall e, In e es -> (fst e < nassocs sch)%nat /\ end_store sch e = s) ->
  forall st, cascade_ends order sch del s k es st = cends del k es st.
Proof.
  intros NS Hes. unfold cends.
  assert (Hstop : forall l (st : state) x, fold_left (fun (acc : state * option exn) e =>
            match acc with
            | (st, Some x) => (st, Some x)
            | (st, None) =>
                if mult_eqb (end_mult sch e) One then clinks del e k (order (lookup st e k)) st
                else (st, None)
            end) l (st, Some x) = (st, Some x)).
  { induction l as [|e l IH]; intros st x; cbn; [reflexivity|apply IH]. }
  induction es as [|e es IH]; intros st; cbn [cascade_ends fold_left]; [reflexivity|].
  destruct (Hes e (or_introl eq_refl)) as [Hi Es].
  assert (Hbr : (if Nat.eqb (a_from (assocs sch (fst e))) s
     then cascade_links del (end_nav sch e) (fst e) true (a_to (assocs sch (fst e))) k
            (order (GetLinksFrom (links st (fst e)) k)) st
     else cascade_links del (end_nav sch e) (fst e) false (a_from (assocs sch (fst e))) k
            (order (GetLinksTo (links st (fst e)) k)) st)
     = clinks del e k (order (lookup st e k)) st).
  { unfold clinks, lookup, end_store, other in *; cbn. specialize (NS _ Hi).
    destruct (snd e); cbn in *.
    - destruct (Nat.eqb_spec (a_from (assocs sch (fst e))) s); [congruence|reflexivity].
    - destruct (Nat.eqb_spec (a_from (assocs sch (fst e))) s); [reflexivity|congruence]. }
  rewrite Hbr. destruct (mult_eqb (end_mult sch e) One).
  - destruct (clinks del e k _ st) as [st1 [x|]]; [symmetry; apply Hstop|].
    apply IH. intros f Hf; apply Hes; right; exact Hf.
  - apply IH. intros f Hf; apply Hes; right; exact Hf.
Qed.

Lemma mult_eqb_eq a b : mult_eqb a b = true <-> a = b.
Proof. destruct a, b; cbn; split; congruence. Qed.

Lemma cends_cons del k e es st :
  cends del k (e :: es) st =
    match (if mult_eqb (end_mult sch e) One then clinks del e k (order (lookup st e k)) st
           else (st, None)) with
    | (st, Some x) => (st, Some x)
    | (st, None) => cends del k es st
    end.
Proof.
  unfold cends; cbn [fold_left].
  destruct (if mult_eqb _ _ then _ else _) as [st1 [x|]]; [|reflexivity].
  induction es as [|f es IH]; cbn; [reflexivity|exact IH].
Qed.

Lemma cends_good del k es : del_ok del -> forall st st' x, wf st ->
  cends del k es st = (st', x) -> good st st'.
Proof.
  intros Hdel. induction es as [|e es IH]; intros st st' x W H.
  - injection H as <- _. apply good_refl, W.
  - rewrite cends_cons in H. destruct (mult_eqb (end_mult sch e) One).
    + destruct (clinks del e k _ st) as [st1 [y|]] eqn:E.
      * injection H as <- _. eapply clinks_good; eassumption.
      * assert (G : good st st1) by (eapply clinks_good; eassumption).
        apply (good_trans _ st1); [exact G|]. eapply IH; [apply G|exact H].
    + eapply IH; eassumption.
Qed.

Lemma cends_done del k s r st0 es :
  del_ok del -> r = (s, k) -> isdel st0 r -> present st0 r -> wf st0 ->
  (forall e, In e es -> (fst e < nassocs sch)%nat /\ end_store sch e = s) ->
  forall st st', during r st0 st -> cends del k es st = (st', None) ->
  during r st0 st' /\ good st st' /\
  forall e t, In e es -> end_mult sch e = One -> elink st0 e k t ->
    gone st0 st' (end_store sch (other e), t) \/ isdel st0 (end_store sch (other e), t).
Proof.
  intros Hdel Er Hr Hpr W0. induction es as [|e es IH]; intros Hes st st' U H.
  - injection H as <-. split; [exact U|]. split; [apply good_refl, (u_good _ _ _ U)|].
    intros e t [].
  - rewrite cends_cons in H. destruct (Hes e (or_introl eq_refl)) as [Hi Es].
    assert (Hes' : forall f, In f es -> (fst f < nassocs sch)%nat /\ end_store sch f = s)
      by (intros f Hf; apply Hes; right; exact Hf).
    pose proof (u_good _ _ _ U) as G. pose proof (g_wf _ _ G) as W.
    destruct (mult_eqb (end_mult sch e) One) eqn:Em.
    + apply mult_eqb_eq in Em.
      destruct (clinks del e k _ st) as [st1 [y|]] eqn:E; [discriminate|].
      destruct (clinks_done del e k r st0 (order (lookup st e k)) Hdel Hi
                  (eq_trans Er (f_equal (fun z => (z, k)) (eq_sym Es))) Hr Hpr)
        with (st := st) (st' := st1) as (U1 & G1 & Hks); [|exact U|exact E|].
      { intros t Ht. rewrite In_order in Ht. apply (requires_mono st0 st); [apply G|].
        apply requires_ends; [exact W|]. exists e, k, t.
        split; [exact Hi|]. split; [exact Ht|]. split; [exact Em|]. split; [|reflexivity].
        rewrite Er, Es; reflexivity. }
      destruct (IH Hes' st1 st' U1 H) as (U' & G' & Hall).
      split; [exact U'|]. split; [eapply good_trans; eassumption|].
      intros f t [<-|Hf] Hm Hl; [|apply (Hall f t Hf Hm Hl)].
      pose proof (u_good _ _ _ U1) as G01.
      assert (Hcase : elink st e k t \/ gone st0 st (end_store sch (other e), t) \/
                      isdel st0 (end_store sch (other e), t)).
      { assert (Hlk : exists a b, linked st0 (fst e) a b /\
                  ((snd e = false /\ a = k /\ b = t) \/ (snd e = true /\ a = t /\ b = k))).
        { rewrite elink_linked in Hl by exact W0. destruct (snd e) eqn:Ese.
          - exists t, k. split; [exact Hl|right; tauto].
          - exists k, t. split; [exact Hl|left; tauto]. }
        destruct Hlk as (a & b & Hab & Hd).
        assert (Hends : (src sch (fst e) a = r /\ dst sch (fst e) b = (end_store sch (other e), t)) \/
                        (dst sch (fst e) b = r /\ src sch (fst e) a = (end_store sch (other e), t))).
        { rewrite Er, <- Es. unfold src, dst, end_store, other; cbn.
          destruct Hd as [(-> & -> & ->)|(-> & -> & ->)]; cbn; tauto. }
        assert (Hng : ~ gone st0 st r).
        { intros [_ A]. apply A, (g_keep _ _ G); assumption. }
        destruct (u_link _ _ _ U (fst e) a b Hi Hab) as [H1|H1].
        { left. rewrite elink_linked by exact W.
          destruct Hd as [(-> & -> & ->)|(-> & -> & ->)]; exact H1. }
        right. destruct Hends as [[E1 E2]|[E1 E2]]; rewrite E1, E2 in H1.
        - destruct H1 as [H1|[H1|[[_ H1]|[H1 _]]]]; try tauto. right. rewrite H1. exact Hr.
        - destruct H1 as [H1|[H1|[[H1 _]|[_ H1]]]]; try tauto. right. rewrite H1. exact Hr. }
      destruct Hcase as [H1|[H1|H1]].
      * assert (In t (order (lookup st e k))) by (apply In_order, H1).
        destruct (Hks t) as [H2|H2]; [assumption| |right; exact H2].
        left. eapply gone_later; eassumption.
      * left. eapply gone_later; [|exact G'|]; [exact G01|].
        eapply gone_later; [exact G|exact G1|exact H1].
      * right; exact H1.
    + destruct (IH Hes' st st' U H) as (U' & G' & Hall).
      split; [exact U'|]. split; [exact G'|].
      intros f t [<-|Hf] Hm Hl; [|apply (Hall f t Hf Hm Hl)].
      rewrite Hm in Em. discriminate.
Qed.

Lemma In_linkEnds s e : In e (linkEnds sch s) <-> (fst e < nassocs sch)%nat /\ end_store sch e = s.
Proof.
  unfold linkEnds. rewrite filter_In, Nat.eqb_eq, in_flat_map. split.
  - intros ((i & Hi & He) & Hs). apply in_seq in Hi. split; [|exact Hs].
    destruct He as [<-|[<-|[]]]; cbn; lia.
  - intros [Hi Hs]. split; [|exact Hs]. exists (fst e). rewrite in_seq. split; [lia|].
    destruct e as [i [|]]; cbn; tauto.
Qed.

(** Marking an entity as being deleted, and taking the mark away. *)
Lemma start_view st s k :
  let st0 := set_store st s (StartDeleting (stores st s) k) in
  (forall x, row_of st0 x = row_of st x) /\ links st0 = links st /\
  (forall x, isdel st0 x <-> isdel st x \/ x = (s, k)) /\
  (forall s', deleting (stores st0 s') =
     if Nat.eqb s s' then sadd k (deleting (stores st s)) else deleting (stores st s')).
Proof.
  cbv zeta. split; [|split; [|split]].
  - intros [s' k']. unfold row_of; cbn. rewrite upd_case.
    destruct (Nat.eqb_spec s s') as [->|]; reflexivity.
  - reflexivity.
  - intros [s' k']. unfold isdel; cbn. rewrite upd_case.
    destruct (Nat.eqb_spec s s') as [->|]; cbn.
    + rewrite In_sadd. intuition congruence.
    + split; [tauto|]. intros [|E]; [assumption|congruence].
  - intros s'. cbn. rewrite upd_case. destruct (Nat.eqb_spec s s') as [->|]; reflexivity.
Qed.

Lemma stop_view st s k :
  let st0 := set_store st s (StopDeleting (stores st s) k) in
  (forall x, row_of st0 x = row_of st x) /\ links st0 = links st /\
  (forall s', deleting (stores st0 s') =
     if Nat.eqb s s' then sdiscard k (deleting (stores st s)) else deleting (stores st s')).
Proof.
  cbv zeta. split; [|split].
  - intros [s' k']. unfold row_of; cbn. rewrite upd_case.
    destruct (Nat.eqb_spec s s') as [->|]; reflexivity.
  - reflexivity.
  - intros s'. cbn. rewrite upd_case. destruct (Nat.eqb_spec s s') as [->|]; reflexivity.
Qed.

Lemma sdiscard_sadd k l : ~ In k l -> sdiscard k (sadd k l) = l.
Proof.
  intros H. unfold sadd. apply kmem_false in H as H'. rewrite H'. unfold sdiscard.
  rewrite filter_app; cbn. rewrite key_eqb_refl; cbn. rewrite app_nil_r.
  clear H'. induction l as [|a l IH]; cbn; [reflexivity|]. cbn in H.
  destruct (key_eqb_spec k a) as [->|]; [exfalso; tauto|]. cbn. f_equal. apply IH. tauto.
Qed.

(** The whole frame around a state [st1] reached by the loops. *)
Lemma frame_good st s k st1 st2 :
  ~ isdel st (s, k) ->
  (let st0 := set_store st s (StartDeleting (stores st s) k) in
   good st0 st1) ->
  st2 = st1 \/ (fst (DeleteEntity sch s k st1) = st2) ->
  good st (set_store st2 s (StopDeleting (stores st2 s) k)).
Proof.
  intros Hnd. cbv zeta. intros G Hst2.
  destruct (start_view st s k) as (Hrow & Hlk & Hdel & Hdl).
  set (st0 := set_store st s (StartDeleting (stores st s) k)) in *.
  assert (Hlk' : forall i a b, linked st0 i a b <-> linked st i a b)
    by (intros i a b; unfold linked; rewrite Hlk; reflexivity).
  assert (V : wf st2 /\ (forall i a b, linked st2 i a b -> linked st1 i a b) /\
              (forall y, row_of st2 y = row_of st1 y \/ (y = (s, k) /\ row_of st2 y = None)) /\
              (forall s', deleting (stores st2 s') = deleting (stores st1 s')) /\
              (forall y, gone st1 st2 y -> untouched st2 y)).
  { destruct Hst2 as [->|<-].
    - split; [apply G|]. split; [tauto|]. split; [left; reflexivity|]. split; [reflexivity|].
      intros y [A B]; contradiction.
    - destruct (DeleteEntity sch s k st1) as [st2' x] eqn:E; cbn [fst].
      destruct (DeleteEntity_spec s k st1 st2' x (g_wf _ _ G) E) as (V1 & V2 & V3 & V4 & V5).
      split; [exact V1|]. split; [intros i a b H; apply V2 in H; apply H|].
      split; [|split; [exact V4|]].
      + intros [s' k']. rewrite V3; cbn. destruct (key_eqb_spec k' k) as [->|]; [|left; reflexivity].
        destruct (Nat.eqb_spec s' s) as [->|]; [right; split; reflexivity|left; reflexivity].
      + intros y [A B] i a b Hi Hl. apply V2 in Hl. destruct Hl as [_ Hl].
        specialize (Hl Hi). assert (y = (s, k)) as ->; [|exact Hl].
        destruct y as [s' k']. rewrite present_row in A, B. rewrite V3 in B; cbn in B.
        destruct (key_eqb_spec k' k) as [->|]; [|cbn in B; contradiction].
        destruct (Nat.eqb_spec s' s) as [->|]; [reflexivity|cbn in B; contradiction]. }
  destruct V as (V1 & V2 & V3 & V4 & V5).
  destruct (stop_view st2 s k) as (Hrow2 & Hlk2 & Hdl2).
  set (st3 := set_store st2 s (StopDeleting (stores st2 s) k)) in *.
  assert (P3 : forall x, present st3 x <-> present st2 x)
    by (intros x; apply present_ext, Hrow2).
  assert (P0 : forall x, present st0 x <-> present st x)
    by (intros x; apply present_ext, Hrow).
  assert (P21 : forall x, present st2 x -> present st1 x).
  { intros x Hx. rewrite present_row in *. destruct (V3 x) as [E|[_ E]]; congruence. }
  split.
  - intros i. change (wf_index (links st2 i)). apply V1.
  - intros x Hx. rewrite Hrow2. apply P3 in Hx. destruct (V3 x) as [E|[_ E]].
    + rewrite E, (g_row _ _ G), Hrow; [reflexivity|]. apply P21, Hx.
    + rewrite present_row in Hx. contradiction.
  - intros s'. rewrite Hdl2. rewrite !V4, !(g_del _ _ G), !Hdl.
    rewrite Nat.eqb_refl. destruct (Nat.eqb_spec s s') as [<-|]; [|reflexivity].
    apply sdiscard_sadd. exact Hnd.
  - intros i a b H. apply Hlk', (g_link _ _ G), V2.
    unfold linked in *. rewrite Hlk2 in H. exact H.
  - intros x Hd Hp. apply P3. assert (Hx1 : present st1 x).
    { apply (g_keep _ _ G); [apply Hdel; tauto|apply P0, Hp]. }
    rewrite present_row in *. destruct (V3 x) as [E|[E _]]; [congruence|]. congruence.
  - intros x [Hp Hn]. apply (untouched_mono st2); [intros i a b; unfold linked; rewrite Hlk2; tauto|].
    rewrite P3 in Hn. destruct (present_dec st1 x) as [H1|H1]; [apply V5; split; assumption|].
    apply (untouched_mono st1); [exact V2|]. apply (g_clean _ _ G). split; [apply P0, Hp|exact H1].
Qed.

Lemma delitem_ok : no_self sch -> forall fuel, del_ok (delitem order sch fuel).
Proof.
  intros NS. induction fuel as [|f IH]; intros s k st st' x W H; cbn [delitem] in H.
  { injection H as <- <-. split; [apply good_refl, W|discriminate]. }
  destruct (kmem_spec k (deleting (stores st s))) as [Hd|Hd].
  { injection H as <- <-. split; [apply good_refl, W|]. intros _. left. split; [exact Hd|reflexivity]. }
  destruct (dmem k (data (stores st s))) eqn:Hp; cbn [negb] in H.
  2: { injection H as <- <-. split; [apply good_refl, W|discriminate]. }
  apply present_dmem in Hp.
  rewrite (cascade_ends_fold _ s) in H;
    [|exact NS|intros e He; apply In_linkEnds; exact He].
  set (st0 := set_store st s (StartDeleting (stores st s) k)) in *.
  destruct (start_view st s k) as (Hrow & Hlk & Hdel & Hdl). fold st0 in Hrow, Hlk, Hdel, Hdl.
  assert (W0 : wf st0) by (intros i; rewrite Hlk; apply W).
  assert (P0 : forall y, present st0 y <-> present st y)
    by (intros y; apply present_ext, Hrow).
  assert (L0 : forall i a b, linked st0 i a b <-> linked st i a b)
    by (intros i a b; unfold linked; rewrite Hlk; reflexivity).
  destruct (cends (delitem order sch f) k (linkEnds sch s) st0) as [st1 [y|]] eqn:E.
  - assert (G1 : good st0 st1) by (eapply cends_good; eassumption).
    injection H as <- <-. split; [|discriminate].
    apply (frame_good st s k st1 st1); [exact Hd|exact G1|left; reflexivity].
  - assert (G1 : good st0 st1) by (eapply cends_good; eassumption).
    destruct (DeleteEntity sch s k st1) as [st2 x2] eqn:ED.
    injection H as H1 H2.
    assert (G : good st st').
    { rewrite <- H1. apply (frame_good st s k st1 st2); [exact Hd|exact G1|].
      right. rewrite ED. reflexivity. }
    split; [exact G|]. intros Hx. right.
    destruct (DeleteEntity_spec s k st1 st2 x2 (g_wf _ _ G1) ED) as (V1 & V2 & V3 & V4 & V5).
    destruct (stop_view st2 s k) as (Hrow2 & Hlk2 & _). rewrite H1 in Hrow2, Hlk2.
    assert (U0 : during (s, k) st0 st0).
    { split; [apply good_refl, W0|tauto| |]; intros; destruct H as [A B]; contradiction. }
    assert (Hr0 : isdel st0 (s, k)) by (apply Hdel; tauto).
    assert (Hp0 : present st0 (s, k)) by (apply P0, Hp).
    destruct (cends_done (delitem order sch f) k s (s, k) st0 (linkEnds sch s) IH eq_refl Hr0 Hp0 W0
                (fun e He => proj1 (In_linkEnds s e) He) st0 st1 U0 E) as (U & _ & Hall).
    assert (Hgone : forall z, gone st st' z <-> gone st0 st1 z \/ z = (s, k)).
    { intros [s' k']. unfold gone. rewrite P0, !present_row, Hrow2, V3; cbn.
      pose proof (g_keep _ _ G1 (s, k) Hr0 Hp0) as Hk1.
      destruct (key_eqb_spec k' k) as [->|Hk']; cbn.
      - destruct (Nat.eqb_spec s' s) as [->|Hs'].
        + apply present_row in Hp. split; [tauto|]. intros _. split; [exact Hp|congruence].
        + split; [tauto|]. intros [H|H]; [exact H|congruence].
      - split; [tauto|]. intros [H|H]; [exact H|congruence]. }
    assert (Hl' : forall i a b, linked st' i a b <-> linked st1 i a b /\
              ((i < nassocs sch)%nat -> src sch i a <> (s, k) /\ dst sch i b <> (s, k))).
    { intros i a b. rewrite <- V2. unfold linked. rewrite Hlk2. reflexivity. }
    assert (Hsk : gone st st' (s, k)) by (apply Hgone; right; reflexivity).
    split; [exact Hsk|]. split.
    + exact G.
    + intros i a b Hi Hl. apply L0 in Hl.
      assert (Heq : forall z : nat * key, {z = (s, k)} + {z <> (s, k)}).
      { intros z. decide equality; [apply key_eq_dec|apply Nat.eq_dec]. }
      destruct (Heq (src sch i a)) as [E1|E1]; [right; left; rewrite E1; exact Hsk|].
      destruct (Heq (dst sch i b)) as [E2|E2]; [right; right; rewrite E2; exact Hsk|].
      destruct (u_link _ _ _ U i a b Hi Hl) as [H|[H|[H|H]]].
      * left. apply Hl'. split; [exact H|tauto].
      * right; left. apply Hgone; tauto.
      * right; right. apply Hgone; tauto.
      * exfalso. tauto.
    + intros u v Hu Hrq.
      assert (Hrq0 : requires sch st0 u v).
      { revert Hrq. apply requires_mono. intros i a b; apply L0. }
      assert (Hfin : gone st0 st1 v \/ isdel st0 v -> gone st st' v \/ isdel st v).
      { intros [A|A]; [left; apply Hgone; tauto|]. apply Hdel in A.
        destruct A as [A|A]; [right; exact A|left; rewrite A; exact Hsk]. }
      apply Hfin. apply Hgone in Hu. destruct Hu as [Hu| ->].
      * apply (u_closed _ _ _ U u v Hu Hrq0).
      * apply requires_ends in Hrq0; [|exact W0].
        destruct Hrq0 as (e & k' & t & Hi & Hl & Hm & Eu & ->). injection Eu as Es <-.
        apply (Hall e t); [apply In_linkEnds; split; [exact Hi|symmetry; exact Es]|exact Hm|exact Hl].
    + intros u Hu. apply Hgone in Hu. destruct Hu as [Hu| ->]; [|apply dep_self].
      apply (dependent_mono st st0); [intros i a b; apply L0|]. apply (u_reach _ _ _ U u Hu).
Qed.

(** *** Termination *)

Definition presentb (st : state) (x : nat * key) : bool := dmem (snd x) (data (stores st (fst x))).
Definition isdelb (st : state) (x : nat * key) : bool := kmem (snd x) (deleting (stores st (fst x))).
Definition todo (univ : list (nat * key)) (st : state) : nat :=
  length (filter (fun x => presentb st x && negb (isdelb st x)) univ).

Lemma filter_length_le {A} (f g : A -> bool) l :
  (forall x, In x l -> f x = true -> g x = true) -> (length (filter f l) <= length (filter g l))%nat.
Proof.
  induction l as [|a l IH]; cbn; intros H; [lia|].
  assert (IH' : (length (filter f l) <= length (filter g l))%nat)
    by (apply IH; intros x Hx; apply H; tauto).
  pose proof (H a (or_introl eq_refl)) as Ha.
  destruct (f a); [rewrite Ha by reflexivity; cbn; lia|]. destruct (g a); cbn; lia.
Qed.

Lemma filter_length_lt {A} (f g : A -> bool) l y :
  (forall x, In x l -> f x = true -> g x = true) -> In y l -> f y = false -> g y = true ->
  (length (filter f l) < length (filter g l))%nat.
Proof.
  induction l as [|a l IH]; cbn; intros H Hy Hf Hg; [tauto|].
  assert (Hle : (length (filter f l) <= length (filter g l))%nat)
    by (apply filter_length_le; intros x Hx; apply H; tauto).
  pose proof (H a (or_introl eq_refl)) as Ha. destruct Hy as [->|Hy].
  - rewrite Hf, Hg. cbn. lia.
  - assert (IH' : (length (filter f l) < length (filter g l))%nat)
      by (apply IH; try assumption; intros x Hx; apply H; tauto).
    destruct (f a); [rewrite Ha by reflexivity; cbn; lia|]. destruct (g a); cbn; lia.
Qed.

Lemma presentb_spec st x : presentb st x = true <-> present st x.
Proof. destruct x as [s k]. symmetry. apply present_dmem. Qed.
Lemma isdelb_spec st x : isdelb st x = true <-> isdel st x.
Proof. apply kmem_In. Qed.

Lemma todo_good univ st st' : good st st' -> (todo univ st' <= todo univ st)%nat.
Proof.
  intros G. apply filter_length_le. intros x _ H. apply andb_true_iff in H as [H1 H2].
  apply andb_true_iff. split.
  - apply presentb_spec. apply presentb_spec in H1. apply (good_present _ _ _ G H1).
  - apply negb_true_iff. apply negb_true_iff in H2.
    destruct (isdelb st x) eqn:E; [|reflexivity]. apply isdelb_spec in E.
    apply (good_isdel _ _ _ G), isdelb_spec in E. congruence.
Qed.

Lemma clinks_fuel del univ e k ks n : del_ok del ->
  (forall s t st st' x, wf st -> (forall y, present st y -> In y univ) ->
     (todo univ st <= n)%nat -> del s t st = (st', x) -> x <> Some OutOfFuel) ->
  forall st st' x, wf st -> (forall y, present st y -> In y univ) -> (todo univ st <= n)%nat ->
  clinks del e k ks st = (st', x) -> x <> Some OutOfFuel.
Proof.
  intros Hdel Hf. induction ks as [|t ks IH]; intros st st' x W C T H.
  - injection H as _ <-. discriminate.
  - rewrite clinks_cons in H. destruct (_ && _); [injection H as _ <-; discriminate|].
    assert (G1 : good st (remove_link st e k t)) by apply good_remove, W.
    pose proof (todo_good univ _ _ G1) as T1.
    destruct (del _ t (remove_link st e k t)) as [st2 [y|]] eqn:E.
    + injection H as _ <-. apply (Hf _ _ _ _ _ (g_wf _ _ G1)) in E; [exact E|exact C|lia].
    + assert (G2 : good st st2).
      { apply (good_trans _ _ _ G1). eapply Hdel; [|exact E]. apply G1. }
      pose proof (todo_good univ _ _ G2) as T2.
      apply (IH st2 st' x); [apply G2| |lia|exact H].
      intros z Hz. apply C, (good_present _ _ _ G2), Hz.
Qed.

Lemma cends_fuel del univ k es n : del_ok del ->
  (forall s t st st' x, wf st -> (forall y, present st y -> In y univ) ->
     (todo univ st <= n)%nat -> del s t st = (st', x) -> x <> Some OutOfFuel) ->
  forall st st' x, wf st -> (forall y, present st y -> In y univ) -> (todo univ st <= n)%nat ->
  cends del k es st = (st', x) -> x <> Some OutOfFuel.
Proof.
  intros Hdel Hf. induction es as [|e es IH]; intros st st' x W C T H.
  - injection H as _ <-. discriminate.
  - rewrite cends_cons in H. destruct (mult_eqb (end_mult sch e) One).
    + destruct (clinks del e k _ st) as [st1 [y|]] eqn:E.
      * injection H as _ <-. eapply clinks_fuel; eassumption.
      * assert (G : good st st1) by (eapply clinks_good; eassumption).
        pose proof (todo_good univ _ _ G). apply (IH st1 st' x); [apply G| |lia|exact H].
        intros z Hz. apply C, (good_present _ _ _ G), Hz.
    + eapply IH; eassumption.
Qed.

Lemma delitem_fuel univ : no_self sch -> forall fuel s k st st' x, wf st ->
  (forall y, present st y -> In y univ) -> (todo univ st < fuel)%nat ->
  delitem order sch fuel s k st = (st', x) -> x <> Some OutOfFuel.
Proof.
  intros NS. induction fuel as [|f IH]; intros s k st st' x W C T H; [lia|].
  cbn [delitem] in H.
  destruct (kmem_spec k (deleting (stores st s))) as [Hd|Hd]; [injection H as _ <-; discriminate|].
  destruct (dmem k (data (stores st s))) eqn:Hp; cbn [negb] in H;
    [|injection H as _ <-; discriminate].
  apply present_dmem in Hp.
  rewrite (cascade_ends_fold _ s) in H;
    [|exact NS|intros e He; apply In_linkEnds; exact He].
  set (st0 := set_store st s (StartDeleting (stores st s) k)) in *.
  destruct (start_view st s k) as (Hrow & Hlk & Hdel & Hdl). fold st0 in Hrow, Hlk, Hdel, Hdl.
  assert (W0 : wf st0) by (intros i; rewrite Hlk; apply W).
  assert (P0 : forall y, present st0 y <-> present st y)
    by (intros y; apply present_ext, Hrow).
  assert (T0 : (todo univ st0 < todo univ st)%nat).
  { apply (filter_length_lt _ _ _ (s, k)).
    - intros y _ Hy. apply andb_true_iff in Hy as [H1 H2]. apply andb_true_iff. split.
      + apply presentb_spec, P0, presentb_spec, H1.
      + apply negb_true_iff in H2. apply negb_true_iff. destruct (isdelb st y) eqn:E; [|reflexivity].
        apply isdelb_spec in E. assert (isdel st0 y) as E2 by (apply Hdel; tauto).
        apply isdelb_spec in E2. congruence.
    - apply C, Hp.
    - assert (isdel st0 (s, k)) as E2 by (apply Hdel; tauto). apply isdelb_spec in E2.
      rewrite E2. apply andb_false_r.
    - apply andb_true_iff. split; [apply presentb_spec, Hp|]. apply negb_true_iff.
      apply kmem_false. exact Hd. }
  destruct (cends (delitem order sch f) k (linkEnds sch s) st0) as [st1 [y|]] eqn:E.
  - injection H as _ <-.
    eapply (cends_fuel (delitem order sch f) univ k (linkEnds sch s) (todo univ st0));
      [apply delitem_ok, NS| |exact W0| |apply Nat.le_refl|exact E].
    + intros s' t u u' z Wu Cu Tu Hu. eapply IH; [exact Wu|exact Cu| |exact Hu]. lia.
    + intros z Hz. apply C, P0, Hz.
  - destruct (DeleteEntity sch s k st1) as [st2 x2] eqn:ED. injection H as _ <-.
    unfold DeleteEntity in ED. destruct (dmem k (data (stores st1 s))); injection ED as _ <-;
      discriminate.
Qed.

End Del.
