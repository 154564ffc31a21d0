From Verif Require Import Py TestForm TestFormSpec.
From Coq Require Import Sorted Permutation Lia.
Open Scope Z_scope.

Lemma Forall_nth {A} (P : A -> Prop) l : Forall P l <-> forall i x, nth_error l i = Some x -> P x.
Proof.
  split.
  - intros H i x E. rewrite Forall_forall in H. eapply H, nth_error_In, E.
  - intros H. apply Forall_forall. intros x Hx. apply In_nth_error in Hx as [i E]. eauto.
Qed.

Lemma index_Ok {A} (l : list A) i x : index l i = Ok x <-> nth_error l i = Some x.
Proof. unfold index. destruct (nth_error l i); split; intros H; inversion H; subst; reflexivity. Qed.

(** ** Induction on parts *)
Fixpoint part_ind' (P : part -> Prop)
  (HI : forall id r f, P (Item id r f))
  (HS : forall id r f v k s sh cs, Forall P cs -> P (Sect id r f v k s sh cs)) (p : part) : P p :=
  match p with
  | Item id r f => HI id r f
  | Sect id r f v k s sh cs =>
      HS id r f v k s sh cs
        ((fix go (l : list part) : Forall P l :=
            match l with
            | [] => Forall_nil P
            | c :: l' => Forall_cons c (part_ind' P HI HS c) (go l')
            end) cs)
  end.

(** ** Sorting, removing, drawing *)
Lemma insert_perm x l : Permutation (x :: l) (insert x l).
Proof.
  induction l as [|y l IH]; [reflexivity|]. cbn [insert]. destruct (Nat.leb x y); [reflexivity|].
  rewrite perm_swap. constructor. exact IH.
Qed.
Lemma sort_perm l : Permutation l (sort_nat l).
Proof.
  induction l as [|x l IH]; [reflexivity|]. cbn. rewrite <- insert_perm. constructor. exact IH.
Qed.
Lemma insert_hdrel a x l : (a <= x)%nat -> HdRel le a l -> HdRel le a (insert x l).
Proof.
  intros H1 H2. destruct l as [|y l]; cbn; [constructor; auto|].
  inversion H2; subst. destruct (Nat.leb x y); constructor; auto.
Qed.
Lemma insert_sorted x l : Sorted le l -> Sorted le (insert x l).
Proof.
  induction 1 as [|y l H IH Hd]; cbn [insert]; [repeat constructor|].
  destruct (Nat.leb x y) eqn:E.
  - apply Nat.leb_le in E. constructor; [constructor; auto|constructor; auto].
  - apply Nat.leb_gt in E. constructor; [exact IH|]. apply insert_hdrel; [lia|exact Hd].
Qed.
Lemma sort_sorted l : Sorted le (sort_nat l).
Proof. induction l; cbn; [constructor|apply insert_sorted; assumption]. Qed.

Lemma remove1_In x y l : In y (remove1 x l) -> In y l.
Proof.
  induction l as [|z l IH]; cbn; [tauto|]. destruct (Nat.eqb x z); cbn; intuition.
Qed.
Lemma remove1_NoDup x l : NoDup l -> NoDup (remove1 x l) /\ ~ In x (remove1 x l).
Proof.
  induction 1 as [|y l H1 H2 [IH1 IH2]]; cbn [remove1]; [split; [constructor|tauto]|].
  destruct (Nat.eqb x y) eqn:E.
  - apply Nat.eqb_eq in E. subst. auto.
  - apply Nat.eqb_neq in E. split.
    + constructor; [|exact IH1]. intros Hi. apply H1. eapply remove1_In, Hi.
    + cbn. intuition.
Qed.
Lemma remove1_perm x l : In x l -> Permutation l (x :: remove1 x l).
Proof.
  induction l as [|y l IH]; [intros []|]. cbn [remove1]. destruct (Nat.eqb x y) eqn:E.
  - apply Nat.eqb_eq in E. subst. reflexivity.
  - apply Nat.eqb_neq in E. intros [->|H]; [congruence|]. rewrite perm_swap. constructor. auto.
Qed.

Lemma draw_lt n rs i rs' : (0 < n)%nat -> draw n rs = (i, rs') -> (i < n)%nat.
Proof.
  intros Hn H. destruct rs as [|r rs]; cbn in H; inversion H; subst; [lia|].
  apply Nat.mod_upper_bound. lia.
Qed.

Lemma remove_at_perm {A} i (l : list A) x :
  nth_error l i = Some x -> Permutation l (x :: remove_at i l).
Proof.
  revert i. induction l as [|y l IH]; intros [|i] H; cbn in H; try discriminate.
  - inversion H; subst. reflexivity.
  - cbn [remove_at]. rewrite perm_swap. constructor. apply IH, H.
Qed.
Lemma shuffle_loop_perm {A} fuel (l : list A) rs l' rs' :
  shuffle_loop fuel l rs = (l', rs') -> Permutation l l'.
Proof.
  revert l rs l' rs'. induction fuel as [|f IH]; intros l rs l' rs' H; cbn in H.
  - inversion H; subst. reflexivity.
  - destruct l as [|a l]; [inversion H; subst; reflexivity|].
    destruct (draw (length (a :: l)) rs) as [i rs1] eqn:Ed.
    destruct (nth_error (a :: l) i) as [x|] eqn:En.
    + destruct (shuffle_loop f (remove_at i (a :: l)) rs1) as [l1 rs2] eqn:E1.
      injection H as <- <-. apply IH in E1.
      rewrite (remove_at_perm i (a :: l) x En). constructor. exact E1.
    + inversion H; subst. reflexivity.
Qed.
Lemma random_shuffle_perm {A} (l : list A) rs l' rs' :
  random_shuffle l rs = (l', rs') -> Permutation l l'.
Proof. apply shuffle_loop_perm. Qed.

(** ** Selection *)
Lemma seq_In a n i : In i (seq a n) <-> (a <= i < a + n)%nat.
Proof. apply in_seq. Qed.

Definition reqs (i : nat) (cs : list part) : list nat :=
  map fst (filter (fun x => required (snd x)) (combine (seq i (length cs)) cs)).

Lemma step1_spec w i cs sel bag sel' bag' :
  step1 w i cs sel bag = (sel', bag') ->
  sel' = sel ++ reqs i cs /\
  bag' = if w then bag else fold_left (fun b x => remove1 x b) (reqs i cs) bag.
Proof.
  revert i sel bag. induction cs as [|c cs IH]; intros i sel bag H; cbn in H.
  - inversion H; subst. unfold reqs. cbn. rewrite app_nil_r. destruct w; auto.
  - unfold reqs. cbn [length seq combine filter snd]. destruct (required c) eqn:Er.
    + apply IH in H as [-> ->]. cbn [map fst]. fold (reqs (S i) cs).
      rewrite <- app_assoc. split; [reflexivity|]. destruct w; reflexivity.
    + apply IH in H as [-> ->]. split; reflexivity.
Qed.

Lemma combine_seq_In {A} (l : list A) i j x :
  In (j, x) (combine (seq i (length l)) l) <-> ((i <= j)%nat /\ nth_error l (j - i) = Some x).
Proof.
  revert i. induction l as [|a l IH]; intros i; cbn [length seq combine].
  - split; [intros []|]. intros [_ H]. destruct (j - i)%nat; discriminate.
  - cbn [In]. rewrite IH. split.
    + intros [H|[H1 H2]].
      * inversion H; subst. split; [lia|]. rewrite Nat.sub_diag. reflexivity.
      * split; [lia|]. replace (j - i)%nat with (S (j - S i)) by lia. exact H2.
    + intros [H1 H2]. destruct (Nat.eq_dec i j) as [<-|E].
      * left. rewrite Nat.sub_diag in H2. inversion H2. reflexivity.
      * right. split; [lia|]. replace (j - i)%nat with (S (j - S i)) in H2 by lia. exact H2.
Qed.

Lemma reqs_In i cs j :
  In j (reqs i cs) <-> exists c, (i <= j)%nat /\ nth_error cs (j - i) = Some c /\ required c = true.
Proof.
  unfold reqs. rewrite in_map_iff. split.
  - intros [[j' c] [<- H]]. apply filter_In in H as [H1 H2]. apply combine_seq_In in H1 as [H3 H4].
    exists c. cbn in *. auto.
  - intros (c & H1 & H2 & H3). exists (j, c). split; [reflexivity|]. apply filter_In.
    split; [|exact H3]. apply combine_seq_In. auto.
Qed.

Lemma reqs_NoDup i cs : NoDup (reqs i cs).
Proof.
  unfold reqs. assert (H : NoDup (map fst (combine (seq i (length cs)) cs))).
  { replace (map fst (combine (seq i (length cs)) cs)) with (seq i (length cs)); [apply seq_NoDup|].
    revert i. induction cs as [|c cs IH]; intros i; [reflexivity|]. cbn. f_equal. apply IH. }
  remember (combine (seq i (length cs)) cs) as l. clear Heql.
  induction l as [|[a b] l IH]; [constructor|]. cbn in H |- *. inversion H; subst.
  destruct (required b); [|auto]. cbn. constructor; [|auto].
  intros Hi. apply H2. apply in_map_iff in Hi as [y [<- Hy]]. apply filter_In in Hy as [Hy _].
  apply in_map, Hy.
Qed.

Lemma fold_remove_spec rs bag : NoDup bag -> NoDup rs -> (forall x, In x rs -> In x bag) ->
  Permutation bag (rs ++ fold_left (fun b x => remove1 x b) rs bag).
Proof.
  revert bag. induction rs as [|r rs IH]; intros bag Hb Hr Hi; [reflexivity|].
  cbn [fold_left app]. inversion Hr; subst.
  assert (Hin : In r bag) by (apply Hi; left; reflexivity).
  rewrite (remove1_perm r bag Hin) at 1. constructor. apply IH; auto.
  - apply remove1_NoDup, Hb.
  - intros x Hx. specialize (Hi x (or_intror Hx)).
    rewrite (remove1_perm r bag Hin) in Hi. destruct Hi as [<-|Hi]; [tauto|exact Hi].
Qed.

Lemma NoDup_app_left {A} (l l' : list A) : NoDup (l ++ l') -> NoDup l.
Proof.
  induction l as [|x l IH]; [constructor|]. cbn. intros H. inversion H; subst.
  constructor; [|auto]. intros Hi. apply H2, in_app_iff. auto.
Qed.

(** What the selection loop keeps. *)
Lemma step2_spec n w sel bag rs sel' rs' (range : nat -> Prop) :
  (forall x, In x bag -> range x) ->
  (w = false -> NoDup (sel ++ bag)) ->
  step2 n w sel bag rs = Ok (sel', rs') ->
  exists t, sel' = sel ++ t /\ length t = n /\ Forall range t /\ (w = false -> NoDup sel').
Proof.
  revert sel bag rs. induction n as [|n IH]; intros sel bag rs Hr Hn H; cbn in H.
  - injection H as <- _. exists []. rewrite app_nil_r. split; [reflexivity|].
    split; [reflexivity|]. split; [constructor|]. intros Hw. apply Hn in Hw.
    apply NoDup_app_left in Hw. exact Hw.
  - destruct bag as [|b bag]; [discriminate|]. remember (b :: bag) as bg.
    destruct (draw (length bg) rs) as [k rs1]. unfold bind in H.
    destruct (index bg k) as [i|] eqn:Ei; [|discriminate]. apply index_Ok in Ei.
    pose proof (nth_error_In _ _ Ei) as Hin.
    apply IH in H.
    + destruct H as (t & -> & H1 & H2 & H3). exists (i :: t). rewrite <- app_assoc in *.
      cbn [app] in *. split; [reflexivity|]. split; [cbn; lia|]. split; [|exact H3].
      constructor; auto.
    + intros x Hx. destruct w; [auto|]. apply Hr. eapply remove1_In, Hx.
    + intros ->. specialize (Hn eq_refl). rewrite <- app_assoc. cbn [app].
      eapply Permutation_NoDup; [|exact Hn]. apply Permutation_app_head, remove1_perm, Hin.
Qed.

Lemma choose_ok sel cs rs s rs' :
  choose sel cs rs = Ok (s, rs') -> selection_ok sel cs s.
Proof.
  unfold choose. intros H.
  set (tw := match sel with Some x => x | None => (Z.of_nat (length cs), false) end) in *.
  assert (Ht : fst tw = target sel cs) by (unfold tw, target; destruct sel as [[? ?]|]; reflexivity).
  assert (Hw : snd tw = may_repeat sel) by (unfold tw, may_repeat; destruct sel as [[? ?]|]; reflexivity).
  destruct tw as [t w]. cbn in Ht, Hw. subst t w.
  destruct (step1 (may_repeat sel) 0 cs [] (seq 0 (length cs))) as [s1 bag] eqn:E1.
  apply step1_spec in E1 as [-> ->]. cbn [app] in H.
  destruct (Z.of_nat (length (reqs 0 cs)) >? target sel cs) eqn:Eg; [discriminate|].
  unfold bind in H.
  set (bag := if may_repeat sel then _ else _) in H.
  destruct (step2 _ _ _ _ _) as [[s2 rs2]|] eqn:E2; [|discriminate]. injection H as <- _.
  assert (Hreq : forall x, In x (reqs 0 cs) -> In x (seq 0 (length cs))).
  { intros x Hx. apply reqs_In in Hx as (c & _ & Hc & _). rewrite Nat.sub_0_r in Hc.
    apply seq_In. split; [lia|]. cbn. apply nth_error_Some. congruence. }
  pose proof (fold_remove_spec (reqs 0 cs) (seq 0 (length cs)) (seq_NoDup _ _) (reqs_NoDup 0 cs) Hreq) as HP.
  apply (step2_spec _ _ _ _ _ _ _ (fun i => (i < length cs)%nat)) in E2.
  - destruct E2 as (t & -> & Hl & Hf & Hnd).
    pose proof (sort_perm (reqs 0 cs ++ t)) as Hs. constructor.
    + apply sort_sorted.
    + apply Forall_forall. intros x Hx. rewrite <- Hs in Hx. apply in_app_iff in Hx as [Hx|Hx].
      * apply Hreq, seq_In in Hx. lia.
      * rewrite Forall_forall in Hf. auto.
    + rewrite <- (Permutation_length Hs), app_length, Hl. lia.
    + intros i c H1 H2. rewrite <- Hs. apply in_app_iff. left. apply reqs_In. exists c.
      rewrite Nat.sub_0_r. auto with arith.
    + intros Hm. eapply Permutation_NoDup; [exact Hs|auto].
  - intros x Hx. unfold bag in Hx. assert (Hx' : In x (seq 0 (length cs))).
    { destruct (may_repeat sel); [exact Hx|]. rewrite HP. apply in_app_iff. auto. }
    apply seq_In in Hx'. lia.
  - intros Hm. unfold bag. rewrite Hm. eapply Permutation_NoDup; [exact HP|apply seq_NoDup].
Qed.
