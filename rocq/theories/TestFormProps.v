(** Properties of test forms (C54, C55). *)
From Verif Require Import Py TestForm TestFormSpec TestFormProofs TestFormProofs2 TestFormProofs3.
From Coq Require Import Sorted Permutation Lia.
Open Scope Z_scope.

(** ** C54: selection and ordering *)

(** A section of items: whatever the random choices, the form is a valid selection in a
    valid order; and every valid selection in every valid order is the form for some
    random choices. *)
Theorem C54_items parts id r f v k sel sh cs e :
  Forall (fun c => is_section c = false /\ parts (ident c) = Some c) cs ->
  (forall rs out rs', Select parts (Sect id r f v k sel sh cs) e rs = Ok (out, rs') ->
     exists l s, out = map Some l /\ selection_ok sel cs s /\ arrangement sh cs s l) /\
  (forall l s, selection_ok sel cs s -> arrangement sh cs s l ->
     exists rs rs', Select parts (Sect id r f v k sel sh cs) e rs = Ok (map Some l, rs')).
Proof.
  intros Hi. split.
  - intros rs out rs' H. pose proof H as H'. rewrite items_Select in H' by exact Hi.
    destruct (choose sel cs rs) as [[s rs1]|]; [|discriminate]. cbn [bind] in H'.
    destruct (random_shuffle (frees sh cs s) rs1) as [m rs2]. injection H' as <- _.
    destruct (proj1 (items_outcomes parts id r f v k sel sh cs e _ Hi)
                (ex_intro _ rs (ex_intro _ rs' H))) as (s' & H1 & H2). eauto.
  - intros l s H1 H2. apply items_outcomes; eauto.
Qed.
Print Assumptions C54_items.

(** A form exists exactly if the required children fit in the selection and there are
    enough children, or some may be repeated. *)
Theorem C54_items_selectable parts id r f v k sel sh cs e rs :
  Forall (fun c => is_section c = false /\ parts (ident c) = Some c) cs ->
  (Z.of_nat (length (filter required cs)) <= target sel cs /\
   (target sel cs <= Z.of_nat (length cs) \/ (may_repeat sel = true /\ (0 < length cs)%nat)) ->
   exists x, Select parts (Sect id r f v k sel sh cs) e rs = Ok x) /\
  (~ (Z.of_nat (length (filter required cs)) <= target sel cs /\
      (target sel cs <= Z.of_nat (length cs) \/ (may_repeat sel = true /\ (0 < length cs)%nat))) ->
   Select parts (Sect id r f v k sel sh cs) e rs = Err SelectionError).
Proof.
  intros Hi. rewrite items_Select by exact Hi. destruct (choose_selectable sel cs rs) as [H1 H2].
  split; intros H.
  - destruct (H1 H) as [[s rs1] ->]. cbn [bind].
    destruct (random_shuffle (frees sh cs s) rs1). eexists. reflexivity.
  - rewrite (H2 H). reflexivity.
Qed.
Print Assumptions C54_items_selectable.

(** Any section, with sections within it. *)
Theorem C54_form_partial parts p e rs out rs' :
  (forall id q, parts id = Some q -> ident q = id) ->
  populated p -> Select parts p e rs = Ok (out, rs') ->
  exists l, out = map Some l /\ form parts p e l.
Proof.
  intros Hp Hpop H. apply (Select_form parts Hp p Hpop) in H as (l & H1 & H2 & _). eauto.
Qed.
Print Assumptions C54_form_partial.

Lemma sections_ok parts ss rs out rs' :
  (forall id q, parts id = Some q -> ident q = id) ->
  (forall s, In s ss -> populated s) -> form_sections parts ss rs = Ok (out, rs') ->
  exists l, out = map Some l /\ sections_form parts ss l.
Proof.
  intros Hp. revert rs out. induction ss as [|s ss IH]; intros rs out Hpop H; cbn in H.
  - injection H as <- _. exists []. split; reflexivity.
  - unfold bind in H. destruct (Select parts s true rs) as [[o1 rs1]|] eqn:E1; [|discriminate].
    destruct (form_sections parts ss rs1) as [[o2 rs2]|] eqn:E2; [|discriminate].
    injection H as <- <-. apply (Select_form parts Hp) in E1 as (l1 & -> & H1 & _); [|apply Hpop; left; reflexivity].
    apply IH in E2 as (l2 & -> & H2); [|intros; apply Hpop; right; assumption].
    exists (ident s :: l1 ++ close (ident s) :: l2). cbn [map]. rewrite map_app. split; [reflexivity|].
    exists l1, l2. auto.
Qed.

Theorem C54_test_form_partial parts ps rs out :
  (forall id q, parts id = Some q -> ident q = id) ->
  populated_test ps -> TestForm parts ps rs = Ok out ->
  exists l, out = map Some ([] :: l) /\ parts_form parts ps l.
Proof.
  intros Hp Hpop H. unfold TestForm, bind in H.
  destruct (form_parts parts ps rs) as [[o rs']|] eqn:E; [|discriminate]. injection H as <-.
  assert (G : exists l, o = map Some l /\ parts_form parts ps l).
  2:{ destruct G as (l & -> & G). exists l. auto. }
  revert rs o E. induction ps as [|p ps IH]; intros rs o E; cbn in E.
  - injection E as <- _. exists []. split; reflexivity.
  - unfold bind in E. destruct (form_sections parts (tp_sections p) rs) as [[o1 rs1]|] eqn:E1; [|discriminate].
    destruct (form_parts parts ps rs1) as [[o2 rs2]|] eqn:E2; [|discriminate]. injection E as <- <-.
    apply sections_ok in E1 as (l1 & -> & H1); [|exact Hp|].
    2:{ intros s Hs. eapply Hpop; [left; reflexivity|exact Hs]. }
    apply IH in E2 as (l2 & -> & H2).
    2:{ intros p' s Hp' Hs. eapply Hpop; [right; exact Hp'|exact Hs]. }
    exists (tp_id p :: l1 ++ close (tp_id p) :: l2). cbn [map]. rewrite map_app. split; [reflexivity|].
    exists l1, l2. auto.
Qed.
Print Assumptions C54_test_form_partial.

(** Without [populated]: an invisible section that selects nothing leaves a hole in the
    form of the section that shuffles it. *)
Definition empty_sec : part := Sect (lit "E") true false false false (Some (0, false)) false [Item (lit "Q") false false].
Definition hole_sec : part := Sect (lit "S") true false true true None true [empty_sec].
Theorem C54_hole_refuted parts rs :
  Select parts hole_sec true rs = Ok ([None], rs).
Proof. reflexivity. Qed.
Print Assumptions C54_hole_refuted.

(** Sections cannot be shuffled: if a visible section is among the shuffled children, no
    form can be made. *)
Definition inner_sec : part := Sect (lit "T") true false true true None false [Item (lit "Q") false false].
Definition outer_sec : part := Sect (lit "S") true false true true None true [inner_sec].
Theorem C54_shuffled_section_refuted parts rs :
  parts (lit "T") = Some inner_sec ->
  Select parts outer_sec true rs = Err AttributeError.
Proof.
  intros H. cbn in H. unfold outer_sec. rewrite Select_eq. unfold select_body, choose. cbn.
  unfold step5, random_shuffle. destruct rs as [|x rs]; cbn; rewrite H; reflexivity.
Qed.
Print Assumptions C54_shuffled_section_refuted.

(** ** C55: nesting *)
Theorem C55_nested_partial parts ps rs out :
  (forall id q, parts id = Some q -> ident q = id) ->
  registered_test parts ps -> populated_test ps -> TestForm parts ps rs = Ok out ->
  exists l, out = map Some ([] :: l) /\ nested (item_id parts) (group_id ps) l.
Proof.
  intros Hp Hreg Hpop H. destruct (C54_test_form_partial _ _ _ _ Hp Hpop H) as (l & -> & Hl).
  exists l. split; [reflexivity|]. clear H Hpop.
  assert (G : forall qs l, (forall q, In q qs -> In q ps) -> parts_form parts qs l ->
     nested (item_id parts) (group_id ps) l).
  2:{ apply (G ps l); auto. }
  clear l Hl. induction qs as [|q qs IH]; intros l Hin H; cbn in H.
  - subst. constructor.
  - destruct H as (l1 & l2 & H1 & H2 & ->).
    assert (Hq : In q ps) by (apply Hin; left; reflexivity).
    apply nested_group.
    + left. apply in_map, Hq.
    + clear H2. assert (K : forall ss l, (forall s, In s ss -> In s (tp_sections q)) ->
        sections_form parts ss l -> nested (item_id parts) (group_id ps) l).
      2:{ apply (K _ _ (fun s h => h) H1). }
      clear l1 H1. induction ss as [|s ss IHs]; intros l Hs H; cbn in H.
      * subst. constructor.
      * destruct H as (m1 & m2 & H1 & H2 & ->).
        assert (Hsin : In s (tp_sections q)) by (apply Hs; left; reflexivity).
        assert (Hall : forall p, In p (subparts s) -> In p (all_parts ps)).
        { intros p Hpin. apply in_flat_map. exists q. split; [exact Hq|].
          apply in_flat_map. exists s. auto. }
        assert (Hg : forall p, In p (subparts s) ->
            if is_section p then group_id ps (ident p) else item_id parts (ident p)).
        { intros p Hpin. destruct (is_section p) eqn:Es.
          - right. exists p. auto.
          - pose proof (Hreg p (Hall p Hpin)) as E. destruct p as [i r0 f0|]; [|discriminate].
            exists r0, f0. exact E. }
        apply nested_group.
        -- destruct s as [i r0 f0|]; [destruct H1|]. apply (Hg _ (subparts_self _)).
        -- eapply form_nested; [|exact H1]. exact Hg.
        -- apply IHs; [|exact H2]. intros x Hx. apply Hs. right. exact Hx.
    + apply IH; [|exact H2]. intros x Hx. apply Hin. right. exact Hx.
Qed.
Print Assumptions C55_nested_partial.

(** [find] gives the indexes at which an identifier occurs. *)
Lemma lookup_add id o i m :
  lookup id (map_add o i m) = lookup id m ++ (match o with Some k => if str_eqb k id then [i] else [] | None => [] end).
Proof.
  induction m as [|[k l] m IH]; cbn.
  - destruct o as [k|]; cbn; [|reflexivity]. destruct (str_eqb k id); reflexivity.
  - destruct k as [k|], o as [o|]; cbn.
    + destruct (str_eqb k o) eqn:Ek; cbn.
      * apply str_eqb_eq in Ek. subst. destruct (str_eqb o id); [reflexivity|].
        rewrite app_nil_r. reflexivity.
      * rewrite IH. destruct (str_eqb k id) eqn:Eki; [|reflexivity].
        apply str_eqb_eq in Eki. subst. destruct (str_eqb o id) eqn:Eo; [|rewrite app_nil_r; reflexivity].
        apply str_eqb_eq in Eo. subst. rewrite str_eqb_refl in Ek. discriminate.
    + rewrite IH. rewrite !app_nil_r. reflexivity.
    + exact IH.
    + rewrite app_nil_r. reflexivity.
Qed.
Definition occurs (l : form_) (id : str) (a : nat) : list nat :=
  map fst (filter (fun x => match snd x with Some k => str_eqb k id | None => false end)
             (combine (seq a (length l)) l)).
Lemma find_occurs l id : find l id = occurs l id 0.
Proof.
  unfold find. assert (G : forall a m, lookup id (build_map a l m) = lookup id m ++ occurs l id a).
  2:{ rewrite G. reflexivity. }
  induction l as [|o l IH]; intros a m; cbn [build_map].
  - cbn. rewrite app_nil_r. reflexivity.
  - rewrite IH, lookup_add, <- app_assoc. f_equal. unfold occurs. cbn.
    destruct o as [k|]; [|reflexivity]. destruct (str_eqb k id); reflexivity.
Qed.
Theorem C55_find l id :
  StronglySorted lt (find l id) /\ forall i, In i (find l id) <-> nth_error l i = Some (Some id).
Proof.
  rewrite find_occurs. split.
  - unfold occurs. generalize 0%nat as a.
    induction l as [|o l IH]; intros a; cbn; [constructor|].
    destruct (match o with Some k => str_eqb k id | None => false end); [|apply IH].
    cbn. constructor; [apply IH|]. apply Forall_forall. intros x Hx.
    apply in_map_iff in Hx as [[j y] [<- Hy]]. apply filter_In in Hy as [Hy _].
    apply combine_seq_In in Hy as [Hy _]. cbn. lia.
  - intros i. unfold occurs. rewrite in_map_iff. split.
    + intros [[j o] [<- H]]. apply filter_In in H as [H1 H2]. apply combine_seq_In in H1 as [_ H1].
      rewrite Nat.sub_0_r in H1. cbn in H2 |- *. rewrite H1. destruct o as [k|]; [|discriminate].
      apply str_eqb_eq in H2. subst. reflexivity.
    + intros H. exists (i, Some id). split; [reflexivity|]. apply filter_In. split.
      * apply combine_seq_In. rewrite Nat.sub_0_r. split; [lia|exact H].
      * cbn. apply str_eqb_refl.
Qed.
Print Assumptions C55_find.

(** ** Non-vacuity *)
Definition ex_cs : list part :=
  [Item (lit "Q1") true true; Item (lit "Q2") false false; Item (lit "Q3") false false; Item (lit "Q4") true false].
Definition ex_sec : part := Sect (lit "S") true false true true (Some (3, false)) true ex_cs.
Definition inv_sec : part :=
  Sect (lit "I") true false false false None false [Item (lit "P1") false false; Item (lit "P2") false false].
Definition ex_sec2 : part :=
  Sect (lit "U") true false true true None true [Item (lit "F") true true; inv_sec; Item (lit "G") true false].
Definition ex_test : list testPart := [mkTestPart (lit "Part") [ex_sec; ex_sec2]].
Definition ex_parts (id : str) : option part :=
  List.find (fun q => str_eqb (ident q) id) (all_parts ex_test).

Example C54_items_ex :
  Forall (fun c => is_section c = false /\ ex_parts (ident c) = Some c) ex_cs /\
  selection_ok (Some (3, false)) ex_cs [0; 1; 3]%nat /\
  arrangement true ex_cs [0; 1; 3]%nat [lit "Q1"; lit "Q4"; lit "Q2"] /\
  Select ex_parts ex_sec true [0; 1]%nat = Ok (map Some [lit "Q1"; lit "Q4"; lit "Q2"], []) /\
  ~ arrangement true ex_cs [0; 1; 3]%nat [lit "Q4"; lit "Q1"; lit "Q2"].
Proof.
  split; [repeat constructor|]. split.
  { constructor.
    - repeat constructor.
    - repeat constructor.
    - reflexivity.
    - intros [|[|[|[|i]]]] c Hc Hr; cbn in Hc.
      + left. reflexivity.
      + inversion Hc; subst. discriminate.
      + inversion Hc; subst. discriminate.
      + right. right. left. reflexivity.
      + destruct i; discriminate.
    - intros _. repeat constructor; cbn; lia. }
  split.
  { constructor.
    - cbn. constructor. apply perm_swap.
    - intros [|[|[|k]]] i Hk Hs; cbn in Hk.
      + inversion Hk; subst. reflexivity.
      + inversion Hk; subst. discriminate.
      + inversion Hk; subst. discriminate.
      + destruct k; discriminate. }
  split; [reflexivity|].
  intros [_ H]. specialize (H 0%nat 0%nat eq_refl eq_refl). discriminate.
Qed.

Example C54_form_ex :
  populated_test ex_test /\ registered_test ex_parts ex_test /\
  (forall id q, ex_parts id = Some q -> ident q = id) /\
  TestForm ex_parts ex_test [0; 1; 2; 0; 0; 0]%nat =
    Ok (map Some [[]; lit "Part"; lit "S"; lit "Q1"; lit "Q4"; lit "Q2"; lit "-S";
                  lit "U"; lit "F"; lit "P1"; lit "G"; lit "P2"; lit "-U"; lit "-Part"]).
Proof.
  split; [|split; [|split]].
  - intros p s [<-|[]] Hs q Hq Hsp. cbn in Hs. destruct Hs as [<-|[<-|[]]]; cbn in Hq;
    repeat (destruct Hq as [<-|Hq]; [try discriminate; cbn; try lia; exact I|]); try destruct Hq.
  - intros q Hq. cbn in Hq. repeat (destruct Hq as [<-|Hq]; [reflexivity|]). destruct Hq.
  - intros id q H. unfold ex_parts in H. apply find_some in H as [_ H]. apply str_eqb_eq in H. exact H.
  - vm_compute. reflexivity.
Qed.

Example C55_find_ex : find (map Some [[]; lit "S"; lit "Q"; lit "Q"; lit "-S"]) (lit "Q") = [2; 3]%nat.
Proof. reflexivity. Qed.
