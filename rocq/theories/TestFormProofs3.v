From Verif Require Import Py TestForm TestFormSpec TestFormProofs TestFormProofs2.
From Coq Require Import Sorted Permutation Lia.
Open Scope Z_scope.

(** ** Every permutation and every selection can be drawn *)
Lemma draw_exact n i rs : (i < n)%nat -> draw n (i :: rs) = (i, rs).
Proof. intros H. cbn. rewrite Nat.mod_small by exact H. reflexivity. Qed.

Lemma shuffle_any {A} (l l' : list A) : Permutation l l' ->
  exists rs, forall rs0, random_shuffle l (rs ++ rs0) = (l', rs0).
Proof.
  unfold random_shuffle. revert l. induction l' as [|x l' IH]; intros l HP.
  - apply Permutation_sym, Permutation_nil in HP. subst. exists []. reflexivity.
  - assert (Hin : In x l) by (rewrite HP; left; reflexivity).
    apply In_nth_error in Hin as [i Hi].
    pose proof (remove_at_perm i l x Hi) as H1.
    assert (H2 : Permutation (remove_at i l) l').
    { apply (Permutation_cons_inv (a := x)). rewrite <- H1. exact HP. }
    destruct (IH _ H2) as [rs Hrs].
    exists (i :: rs). intros rs0.
    assert (Hlt : (i < length l)%nat) by (apply nth_error_Some; congruence).
    rewrite (Permutation_length H1). cbn [shuffle_loop length app].
    destruct l as [|a l]; [cbn in Hlt; lia|].
    rewrite draw_exact by exact Hlt. rewrite Hi, Hrs. reflexivity.
Qed.

Lemma step2_any t w sel bag : (w = true -> Forall (fun x => In x bag) t) ->
  (w = false -> exists rest, Permutation bag (t ++ rest)) ->
  exists rs, forall rs0, step2 (length t) w sel bag (rs ++ rs0) = Ok (sel ++ t, rs0).
Proof.
  revert sel bag. induction t as [|x t IH]; intros sel bag H1 H2.
  - exists []. intros rs0. cbn. rewrite app_nil_r. reflexivity.
  - assert (Hin : In x bag).
    { destruct w; [specialize (H1 eq_refl); inversion H1; assumption|].
      destruct (H2 eq_refl) as [rest HP]. rewrite HP. left. reflexivity. }
    destruct (In_nth_error _ _ Hin) as [i Hi].
    destruct (IH (sel ++ [x]) (if w then bag else remove1 x bag)) as [rs Hrs].
    + intros ->. specialize (H1 eq_refl). inversion H1; assumption.
    + intros ->. destruct (H2 eq_refl) as [rest HP]. exists rest.
      apply (Permutation_cons_inv (a := x)). rewrite <- remove1_perm by exact Hin. exact HP.
    + exists (i :: rs). intros rs0. cbn [length step2 app].
      assert (Hlt : (i < length bag)%nat) by (apply nth_error_Some; congruence).
      destruct bag as [|b bag]; [destruct Hin|].
      rewrite draw_exact by exact Hlt.
      assert (Ei : index (b :: bag) i = Ok x) by (apply index_Ok; exact Hi).
      rewrite Ei. cbn [bind]. rewrite Hrs, <- app_assoc. reflexivity.
Qed.

Lemma sorted_perm_eq (l l' : list nat) : Sorted le l -> Sorted le l' -> Permutation l l' -> l = l'.
Proof.
  intros H1 H2. apply Sorted_StronglySorted in H1; [|intros ? ? ?; lia].
  apply Sorted_StronglySorted in H2; [|intros ? ? ?; lia].
  revert l' H2. induction H1 as [|x l H1 IH Hx]; intros l' H2 HP.
  - apply Permutation_nil in HP. congruence.
  - destruct H2 as [|y l' H2 Hy]; [apply Permutation_sym, Permutation_nil in HP; discriminate|].
    assert (x = y).
    { rewrite Forall_forall in Hx, Hy.
      assert (Ha : In x (y :: l')) by (rewrite <- HP; left; reflexivity).
      assert (Hb : In y (x :: l)) by (rewrite HP; left; reflexivity).
      destruct Ha as [Ha|Ha]; [congruence|]. destruct Hb as [Hb|Hb]; [congruence|].
      specialize (Hx _ Hb). specialize (Hy _ Ha). lia. }
    subst y. f_equal. apply IH; [exact H2|]. apply Permutation_cons_inv in HP. exact HP.
Qed.

Lemma take_out (r s : list nat) : NoDup r -> (forall x, In x r -> In x s) ->
  exists t, Permutation s (r ++ t).
Proof.
  revert s. induction r as [|x r IH]; intros s Hn Hs; [exists s; reflexivity|].
  inversion Hn; subst.
  assert (Hin : In x s) by (apply Hs; left; reflexivity).
  destruct (IH (remove1 x s)) as [t Ht]; [assumption| |].
  - intros y Hy. specialize (Hs y (or_intror Hy)). rewrite (remove1_perm x s Hin) in Hs.
    destruct Hs as [<-|Hs]; [tauto|exact Hs].
  - exists t. rewrite (remove1_perm x s Hin) at 1. cbn. constructor. exact Ht.
Qed.

Definition tw (sel : option (Z * bool)) (cs : list part) :=
  match sel with Some x => x | None => (Z.of_nat (length cs), false) end.
Lemma tw_eq sel cs : tw sel cs = (target sel cs, may_repeat sel).
Proof. unfold tw, target, may_repeat. destruct sel as [[? ?]|]; reflexivity. Qed.

Lemma choose_eq sel cs rs :
  choose sel cs rs =
    let bag := if may_repeat sel then seq 0 (length cs)
               else fold_left (fun b x => remove1 x b) (reqs 0 cs) (seq 0 (length cs)) in
    if Z.of_nat (length (reqs 0 cs)) >? target sel cs then Err SelectionError
    else
      '(selection, rs) <- step2 (Z.to_nat (target sel cs - Z.of_nat (length (reqs 0 cs))))
                                (may_repeat sel) (reqs 0 cs) bag rs ;;
      Ok (sort_nat selection, rs).
Proof.
  unfold choose. fold (tw sel cs). rewrite tw_eq.
  destruct (step1 (may_repeat sel) 0 cs [] (seq 0 (length cs))) as [s1 bag] eqn:E1.
  apply step1_spec in E1 as [-> ->]. reflexivity.
Qed.

Lemma reqs_seq cs x : In x (reqs 0 cs) -> In x (seq 0 (length cs)).
Proof.
  intros Hx. apply reqs_In in Hx as (c & _ & Hc & _). rewrite Nat.sub_0_r in Hc.
  apply seq_In. split; [lia|]. cbn. apply nth_error_Some. congruence.
Qed.

Lemma choose_any sel cs s : selection_ok sel cs s ->
  exists rs, forall rs0, choose sel cs (rs ++ rs0) = Ok (s, rs0).
Proof.
  intros [H1 H2 H3 H4 H5].
  destruct (take_out (reqs 0 cs) s (reqs_NoDup 0 cs)) as [t Ht].
  { intros x Hx. apply reqs_In in Hx as (c & _ & Hc & Hr). rewrite Nat.sub_0_r in Hc. eauto. }
  assert (Hlen : length t = Z.to_nat (target sel cs - Z.of_nat (length (reqs 0 cs)))).
  { rewrite <- H3, (Permutation_length Ht), app_length. lia. }
  set (bag := if may_repeat sel then seq 0 (length cs)
              else fold_left (fun b x => remove1 x b) (reqs 0 cs) (seq 0 (length cs))).
  destruct (step2_any t (may_repeat sel) (reqs 0 cs) bag) as [rs Hrs].
  - intros E. unfold bag. rewrite E. apply Forall_forall. intros x Hx.
    assert (Hs : In x s) by (rewrite Ht; apply in_app_iff; auto).
    rewrite Forall_forall in H2. apply seq_In. specialize (H2 _ Hs). lia.
  - intros E. unfold bag. rewrite E.
    pose proof (fold_remove_spec (reqs 0 cs) (seq 0 (length cs)) (seq_NoDup _ _) (reqs_NoDup 0 cs)
                  (reqs_seq cs)) as HP.
    set (bag' := fold_left _ _ _) in *.
    assert (Hnd : NoDup (reqs 0 cs ++ t)) by (eapply Permutation_NoDup; [exact Ht|auto]).
    apply take_out.
    + clear -Hnd. induction (reqs 0 cs); [exact Hnd|]. inversion Hnd; auto.
    + intros x Hx. assert (Hs : In x s) by (rewrite Ht; apply in_app_iff; auto).
      rewrite Forall_forall in H2. specialize (H2 _ Hs).
      assert (Hq : In x (seq 0 (length cs))) by (apply seq_In; lia).
      rewrite HP in Hq. apply in_app_iff in Hq as [Hq|Hq]; [|exact Hq]. exfalso.
      apply in_split in Hx as (t1 & t2 & ->).
      apply in_split in Hq as (q1 & q2 & Eq). rewrite Eq in Hnd.
      rewrite <- app_assoc in Hnd. apply NoDup_remove_2 in Hnd. apply Hnd.
      apply in_app_iff. right. apply in_app_iff. right. apply in_app_iff. right. left. reflexivity.
  - exists rs. intros rs0. rewrite choose_eq. cbv zeta. fold bag.
    destruct (Z.gtb_spec (Z.of_nat (length (reqs 0 cs))) (target sel cs)) as [Hgt|_].
    + exfalso. rewrite <- H3, (Permutation_length Ht), app_length in Hgt. lia.
    + rewrite <- Hlen, Hrs. cbn [bind]. f_equal. f_equal.
      apply sorted_perm_eq; [apply sort_sorted|exact H1|]. rewrite <- sort_perm. symmetry. exact Ht.
Qed.

(** When a selection is possible. *)
Definition selectable (sel : option (Z * bool)) (cs : list part) : Prop :=
  Z.of_nat (length (filter required cs)) <= target sel cs /\
  (target sel cs <= Z.of_nat (length cs) \/ (may_repeat sel = true /\ (0 < length cs)%nat)).

Lemma reqs_length i cs : length (reqs i cs) = length (filter required cs).
Proof.
  unfold reqs. rewrite map_length. revert i. induction cs as [|c cs IH]; intros i; [reflexivity|].
  cbn. destruct (required c); cbn; rewrite IH; reflexivity.
Qed.

Lemma step2_total n w sel bag rs : (w = true -> n <> O -> bag <> []) ->
  (w = false -> (n <= length bag)%nat) -> exists x, step2 n w sel bag rs = Ok x.
Proof.
  revert sel bag rs. induction n as [|n IH]; intros sel bag rs H1 H2; [eexists; reflexivity|].
  cbn [step2]. destruct bag as [|b bag].
  - exfalso. destruct w; [apply (H1 eq_refl); [discriminate|reflexivity]|].
    specialize (H2 eq_refl). cbn in H2. lia.
  - destruct (draw (length (b :: bag)) rs) as [k rs1] eqn:Ed. apply draw_lt in Ed; [|cbn; lia].
    destruct (nth_error (b :: bag) k) as [x|] eqn:Ex; [|apply nth_error_None in Ex; lia].
    assert (Ei : index (b :: bag) k = Ok x) by (apply index_Ok; exact Ex).
    rewrite Ei. cbn [bind]. apply IH.
    + intros -> _. discriminate.
    + intros ->. specialize (H2 eq_refl).
      pose proof (Permutation_length (remove1_perm x _ (nth_error_In _ _ Ex))) as HL.
      cbn [length] in HL, H2 |- *. lia.
Qed.
Lemma step2_fail n w sel bag rs : step2 n w sel bag rs = Err SelectionError \/
  exists x, step2 n w sel bag rs = Ok x.
Proof.
  revert sel bag rs. induction n as [|n IH]; intros sel bag rs; [right; eexists; reflexivity|].
  cbn [step2]. destruct bag as [|b bag]; [left; reflexivity|].
  destruct (draw (length (b :: bag)) rs) as [k rs1] eqn:Ed. apply draw_lt in Ed; [|cbn; lia].
  destruct (nth_error (b :: bag) k) as [x|] eqn:Ex; [|apply nth_error_None in Ex; lia].
  assert (Ei : index (b :: bag) k = Ok x) by (apply index_Ok; exact Ex).
  rewrite Ei. cbn [bind]. apply IH.
Qed.

Lemma NoDup_bound (s : list nat) n : NoDup s -> Forall (fun i => (i < n)%nat) s -> (length s <= n)%nat.
Proof.
  intros H1 H2. rewrite <- (seq_length n 0). apply NoDup_incl_length; [exact H1|].
  intros x Hx. rewrite Forall_forall in H2. apply seq_In. specialize (H2 _ Hx). lia.
Qed.

Lemma choose_selectable sel cs rs :
  (selectable sel cs -> exists x, choose sel cs rs = Ok x) /\
  (~ selectable sel cs -> choose sel cs rs = Err SelectionError).
Proof.
  split.
  - intros [H1 H2]. rewrite choose_eq. cbv zeta. rewrite reqs_length.
    destruct (Z.gtb_spec (Z.of_nat (length (filter required cs))) (target sel cs)) as [Hgt|_]; [lia|].
    match goal with |- context [step2 ?n ?w ?s ?b ?r] => destruct (step2_total n w s b r) as [[x rs1] Ex] end.
    + intros -> Hn. destruct cs; [|discriminate]. exfalso. cbn [length filter] in *. lia.
    + intros E. rewrite E.
      pose proof (Permutation_length (fold_remove_spec (reqs 0 cs) (seq 0 (length cs)) (seq_NoDup _ _)
                    (reqs_NoDup 0 cs) (reqs_seq cs))) as HP.
      rewrite seq_length, app_length, reqs_length in HP. rewrite E in H2.
      destruct H2 as [H2|[H2 _]]; [lia|discriminate].
    + rewrite Ex. eexists. reflexivity.
  - intros Hn. destruct (choose sel cs rs) as [[s rs1]|e] eqn:E.
    + exfalso. apply Hn. pose proof E as E'. apply choose_ok in E. destruct E as [H1 H2 H3 H4 H5].
      split.
      * rewrite choose_eq in E'. cbv zeta in E'. rewrite reqs_length in E'.
        destruct (Z.gtb_spec (Z.of_nat (length (filter required cs))) (target sel cs)); [discriminate|lia].
      * destruct (may_repeat sel).
        -- destruct cs as [|c cs]; [|right; split; [reflexivity|cbn; lia]]. left.
           destruct s; [cbn in H3; cbn; lia|]. inversion H2; subst. cbn in *. lia.
        -- left. pose proof (NoDup_bound _ _ (H5 eq_refl) H2). lia.
    + rewrite choose_eq in E. cbv zeta in E. destruct (_ >? _); [congruence|].
      match type of E with context [step2 ?n ?w ?s ?b ?r] => destruct (step2_fail n w s b r) as [F|[[x y] F]] end;
      rewrite F in E; cbn in E; congruence.
Qed.

(** ** Sections of items *)
Section Items.
Variable parts : str -> option part.

Fixpoint frees (sh : bool) (cs : list part) (s : list nat) : list str :=
  match s with
  | [] => []
  | i :: s' => if stays sh cs i then frees sh cs s' else ident_at cs i :: frees sh cs s'
  end.
Fixpoint place (sh : bool) (cs : list part) (s : list nat) (l : list str) : list str :=
  match s with
  | [] => []
  | i :: s' =>
      if stays sh cs i then ident_at cs i :: place sh cs s' l
      else match l with x :: l' => x :: place sh cs s' l' | [] => [] :: place sh cs s' [] end
  end.
Definition holes (sh : bool) (cs : list part) (s : list nat) : form_ :=
  map (fun i => if stays sh cs i then Some (ident_at cs i) else None) s.

Definition items (cs : list part) : Prop :=
  Forall (fun c => is_section c = false /\ parts (ident c) = Some c) cs.

Lemma items_step4 sh e cs fs : items cs -> length fs = length cs ->
  forall s, Forall (fun i => (i < length cs)%nat) s -> forall new sl rs,
  step4 parts sh e cs fs s new sl rs = Ok (new ++ holes sh cs s, sl ++ frees sh cs s, rs).
Proof.
  intros Hi Hl. induction 1 as [|i s Hlt Hs IH]; intros new sl rs.
  - cbn. rewrite !app_nil_r. reflexivity.
  - cbn [step4 holes map frees].
    destruct (nth_error cs i) as [c|] eqn:Ec; [|apply nth_error_None in Ec; lia].
    destruct (nth_error fs i) as [f|] eqn:Ef; [|apply nth_error_None in Ef; lia].
    assert (E1 : index cs i = Ok c) by (apply index_Ok; exact Ec). rewrite E1. cbn [bind].
    assert (E2 : index fs i = Ok f) by (apply index_Ok; exact Ef). rewrite E2. cbn [bind].
    unfold stays, ident_at. rewrite Ec.
    unfold items in Hi. rewrite Forall_forall in Hi. destruct (Hi c (nth_error_In _ _ Ec)) as [H1 _].
    assert (Hsp : split c = false) by (destruct c; [reflexivity|discriminate]).
    unfold in_place.
    destruct sh; cbn [negb orb andb].
    + destruct (fixed c); cbn [negb].
      * rewrite H1. cbn [andb]. rewrite IH. unfold holes. rewrite <- app_assoc. reflexivity.
      * rewrite Hsp, IH. unfold holes. rewrite <- !app_assoc. reflexivity.
    + rewrite H1. cbn [andb]. rewrite IH. unfold holes. rewrite <- app_assoc. reflexivity.
Qed.

Lemma items_fill sh cs s l : length l = length (frees sh cs s) ->
  fill_buckets (holes sh cs s) l = Ok (map (fun x => [x]) l, []).
Proof.
  revert l. induction s as [|i s IH]; intros l Hl; cbn [holes map frees fill_buckets] in *.
  - destruct l; [reflexivity|discriminate].
  - destruct (stays sh cs i); [apply IH, Hl|]. destruct l as [|x l]; [discriminate|].
    cbn in Hl. unfold holes in IH. rewrite IH by lia. reflexivity.
Qed.

Lemma items_splice sh cs s l : length l = length (frees sh cs s) ->
  Forall (fun x => exists c, parts x = Some c /\ is_section c = false) l ->
  splice_all parts (map (fun x => [x]) l) (holes sh cs s) = Ok (map Some (place sh cs s l)).
Proof.
  revert l. induction s as [|i s IH]; intros l Hl Hf; cbn [holes map frees place] in *.
  - destruct l; [reflexivity|discriminate].
  - destruct (stays sh cs i).
    + pose proof (splice_all_Some parts (map (fun x => [x]) l) [ident_at cs i] (holes sh cs s)) as E.
      unfold holes in *. cbn [map app] in E. rewrite E, IH by assumption. reflexivity.
    + destruct l as [|x l]; [discriminate|]. cbn in Hl. inversion Hf as [|? ? (c & Hc & Hs) Hf']; subst.
      cbn [map splice_all expand_bucket]. rewrite Hc, Hs. cbn [bind splice_in].
      pose proof (splice_all_Some parts (map (fun x => [x]) l) [x] (holes sh cs s)) as E.
      unfold holes in *. cbn [map app] in E |- *. rewrite E, IH by (lia || assumption). reflexivity.
Qed.

Lemma holes_none sh cs s : frees sh cs s = [] -> holes sh cs s = map Some (place sh cs s []).
Proof.
  induction s as [|i s IH]; [reflexivity|]. cbn. destruct (stays sh cs i); [|discriminate].
  intros H. cbn. rewrite <- IH by exact H. reflexivity.
Qed.

Lemma frees_items sh cs s : items cs -> Forall (fun i => (i < length cs)%nat) s ->
  Forall (fun x => exists c, parts x = Some c /\ is_section c = false) (frees sh cs s).
Proof.
  intros Hi. induction 1 as [|i s Hlt Hs IH]; [constructor|]. cbn.
  destruct (stays sh cs i); [exact IH|]. constructor; [|exact IH].
  destruct (nth_error cs i) as [c|] eqn:Ec; [|apply nth_error_None in Ec; lia].
  unfold ident_at. rewrite Ec. unfold items in Hi. rewrite Forall_forall in Hi.
  destruct (Hi c (nth_error_In _ _ Ec)) as [H1 H2]. eauto.
Qed.

Lemma items_Select id r f v k sel sh cs e rs : items cs ->
  Select parts (Sect id r f v k sel sh cs) e rs =
    ('(s, rs) <- choose sel cs rs ;;
     let '(l, rs) := random_shuffle (frees sh cs s) rs in
     Ok (map Some (place sh cs s l), rs)).
Proof.
  intros Hi. rewrite Select_eq. unfold select_body.
  destruct (choose sel cs rs) as [[s rs1]|] eqn:Ec; [|reflexivity]. cbn [bind].
  apply choose_ok in Ec. destruct Ec as [_ Hr _ _ _].
  rewrite (items_step4 sh e cs) by (assumption || apply map_length). cbn [bind app].
  unfold step5. destruct (frees sh cs s) as [|x0 l0] eqn:Ef.
  - cbn. rewrite holes_none by exact Ef. reflexivity.
  - rewrite <- Ef. clear Ef x0 l0. destruct (random_shuffle (frees sh cs s) rs1) as [l rs2] eqn:E.
    apply random_shuffle_perm in E.
    rewrite items_fill by (symmetry; apply Permutation_length, E). cbn [bind spread].
    rewrite items_splice; [reflexivity|symmetry; apply Permutation_length, E|].
    rewrite <- E. apply frees_items; assumption.
Qed.

Lemma place_arrangement sh cs s l : Permutation (frees sh cs s) l -> arrangement sh cs s (place sh cs s l).
Proof.
  intros HP. constructor.
  - (* permutation *)
    assert (H : Permutation (map (ident_at cs) s)
              (frees sh cs s ++ map (ident_at cs) (filter (stays sh cs) s))).
    { clear HP. induction s as [|i s IH]; [reflexivity|]. cbn. destruct (stays sh cs i); cbn.
      - rewrite IH. apply Permutation_middle.
      - constructor. exact IH. }
    rewrite H. assert (HL := Permutation_length HP).
    assert (H2 : Permutation (place sh cs s l) (l ++ map (ident_at cs) (filter (stays sh cs) s))).
    { clear HP H. revert l HL. induction s as [|i s IH]; intros l HL; cbn in *.
      - destruct l; [reflexivity|discriminate].
      - destruct (stays sh cs i); cbn.
        + rewrite (IH l HL). apply Permutation_middle.
        + destruct l as [|x l]; [discriminate|]. cbn in HL |- *. constructor. apply IH. lia. }
    rewrite H2. apply Permutation_app_tail. exact HP.
  - intros k i. revert k l HP. induction s as [|j s IH]; intros [|k] l HP H1 H2; try discriminate.
    + cbn in H1. injection H1 as ->. cbn. rewrite H2. reflexivity.
    + cbn in H1. cbn. assert (HL := Permutation_length HP). cbn in HL.
      cbn in HP. destruct (stays sh cs j).
      * cbn. apply IH; assumption.
      * destruct l as [|x l]; [cbn in HL; discriminate|]. cbn.
        clear HP. assert (HL' : length (frees sh cs s) = length l) by (cbn in HL; lia). clear HL IH.
        revert k l H1 HL'. induction s as [|m s IH]; intros [|k] l H1 HL'; try discriminate.
        -- cbn in H1. injection H1 as ->. cbn. rewrite H2. reflexivity.
        -- cbn in *. destruct (stays sh cs m); cbn; [apply IH; assumption|].
           destruct l as [|y l]; [discriminate|]. cbn. apply IH; [assumption|cbn in HL'; lia].
Qed.

(** Every arrangement is a placement. *)
Fixpoint movers (sh : bool) (cs : list part) (s : list nat) (l : list str) : list str :=
  match s, l with
  | i :: s', x :: l' => if stays sh cs i then movers sh cs s' l' else x :: movers sh cs s' l'
  | _, _ => []
  end.
Lemma arrangement_place sh cs s l : arrangement sh cs s l ->
  exists m, Permutation (frees sh cs s) m /\ place sh cs s m = l.
Proof.
  intros [HP Hst]. exists (movers sh cs s l).
  assert (HL : length s = length l) by (rewrite <- (Permutation_length HP), map_length; reflexivity).
  assert (Hpl : place sh cs s (movers sh cs s l) = l /\
     Permutation l (movers sh cs s l ++ map (ident_at cs) (filter (stays sh cs) s))).
  { clear HP. revert l HL Hst. induction s as [|i s IH]; intros [|x l] HL Hst; try discriminate.
    - split; reflexivity.
    - cbn in HL. destruct (IH l ltac:(lia)) as [H1 H2].
      { intros k j Hk Hj. apply (Hst (S k) j Hk Hj). }
      cbn. destruct (stays sh cs i) eqn:Es.
      + specialize (Hst O i eq_refl Es). cbn in Hst. injection Hst as ->. split; [congruence|].
        cbn. rewrite H2 at 1. apply Permutation_middle.
      + split; [congruence|]. cbn. constructor. exact H2. }
  destruct Hpl as [H1 H2]. split; [|exact H1].
  assert (H : Permutation (map (ident_at cs) s)
            (frees sh cs s ++ map (ident_at cs) (filter (stays sh cs) s))).
  { clear. induction s as [|i s IH]; [reflexivity|]. cbn. destruct (stays sh cs i); cbn.
    - rewrite IH. apply Permutation_middle.
    - constructor. exact IH. }
  apply (Permutation_app_inv_r (map (ident_at cs) (filter (stays sh cs) s))).
  rewrite <- H, <- H2. exact HP.
Qed.

Lemma items_outcomes id r f v k sel sh cs e l : items cs ->
  (exists rs rs', Select parts (Sect id r f v k sel sh cs) e rs = Ok (map Some l, rs')) <->
  (exists s, selection_ok sel cs s /\ arrangement sh cs s l).
Proof.
  intros Hi. split.
  - intros (rs & rs' & H). rewrite items_Select in H by exact Hi.
    destruct (choose sel cs rs) as [[s rs1]|] eqn:Ec; [|discriminate]. cbn [bind] in H.
    apply choose_ok in Ec. exists s. split; [exact Ec|].
    destruct (random_shuffle (frees sh cs s) rs1) as [m rs2] eqn:Er. apply random_shuffle_perm in Er.
    injection H as H _.
    assert (place sh cs s m = l).
    { clear -H. revert H. generalize (place sh cs s m). intros p. revert l.
      induction p as [|x p IH]; intros [|y l] H; try discriminate; [reflexivity|].
      cbn in H. injection H as -> H. f_equal. auto. }
    subst l. apply place_arrangement, Er.
  - intros (s & Hs & Ha). apply arrangement_place in Ha as (m & HP & <-).
    destruct (choose_any _ _ _ Hs) as [rs1 H1]. destruct (shuffle_any _ _ HP) as [rs2 H2].
    exists (rs1 ++ rs2 ++ []), []. rewrite items_Select by exact Hi. rewrite H1. cbn [bind].
    rewrite H2. reflexivity.
Qed.
End Items.
