From Verif Require Import Py TestForm TestFormSpec TestSession TestSessionSpec TestSessionProofs TestSessionProofs2.
Open Scope Z_scope.

Section Scan.
Variable V : Type.
Variable parts : str -> option (tpart V).
Notation is_item := (@is_item V parts).
Notation is_group := (@is_group V parts).
Notation nest := (nested is_item is_group).

Inductive cls := Closing | Question | Group.
Definition cls_of (id : str) : cls :=
  match is_close id with
  | Ok true => Closing
  | _ => match parts id with
         | Some p => match p_kind V p with KItem => Question | _ => Group end
         | None => Question
         end
  end.
Lemma cls_item id : is_item id -> cls_of id = Question.
Proof.
  intros (Hp & p & H1 & H2). unfold cls_of. destruct id as [|c id]; [destruct Hp|]. cbn in *.
  replace (c =? 45) with false by lia. rewrite H1, H2. reflexivity.
Qed.
Lemma cls_group id : is_group id -> cls_of id = Group.
Proof.
  intros (Hp & p & H1 & H2). unfold cls_of. destruct id as [|c id]; [destruct Hp|]. cbn in *.
  replace (c =? 45) with false by lia. rewrite H1. destruct (p_kind V p); congruence.
Qed.
Lemma cls_close id : cls_of (close id) = Closing.
Proof. reflexivity. Qed.

(** The open groups, from the last identifier backwards. *)
Fixpoint scan (rp : list str) (ign : nat) : list nat * nat :=
  match rp with
  | [] => ([], ign)
  | id :: rp' =>
      match cls_of id with
      | Closing => scan rp' (S ign)
      | Question => scan rp' ign
      | Group => match ign with
                 | O => (length rp' :: fst (scan rp' O), snd (scan rp' O))
                 | S n => scan rp' n
                 end
      end
  end.

Lemma scan_app a b ign :
  scan (a ++ b) ign =
    (map (fun o => (o + length b)%nat) (fst (scan a ign)) ++ fst (scan b (snd (scan a ign))),
     snd (scan b (snd (scan a ign)))).
Proof.
  revert ign. induction a as [|id a IH]; intros ign; cbn [app scan].
  - cbn. destruct (scan b ign); reflexivity.
  - destruct (cls_of id); try apply IH. destruct ign as [|n]; [|apply IH].
    rewrite IH. cbn [fst snd map app]. rewrite app_length. reflexivity.
Qed.

Lemma scan_nested l : nest l -> forall ign, scan (rev l) ign = ([], ign).
Proof.
  induction 1 as [|id l Hi H IH|g l l' Hg H IH H' IH']; intros ign; [reflexivity| |].
  - cbn [rev]. rewrite scan_app, IH. cbn. rewrite (cls_item _ Hi). reflexivity.
  - cbn [rev]. rewrite rev_app_distr. cbn [rev]. rewrite !scan_app. rewrite IH'. cbn [fst snd map app scan].
    rewrite cls_close. cbn [fst snd map app]. rewrite IH. cbn [fst snd map app].
    rewrite (cls_group _ Hg). reflexivity.
Qed.

Lemma app_split {A} (a b p s : list A) : a ++ b = p ++ s ->
  (exists x, a = p ++ x /\ s = x ++ b) \/ (exists x, p = a ++ x /\ b = x ++ s).
Proof.
  revert p. induction a as [|y a IH]; intros p H; [right; exists p; auto|].
  destruct p as [|z p]; [left; exists (y :: a); cbn in *; auto|].
  cbn in H. injection H as <- H. apply IH in H as [(x & -> & ->)|(x & -> & ->)].
  - left. exists x. auto.
  - right. exists x. auto.
Qed.

Lemma scan_prefix l : nest l -> forall p s, l = p ++ s -> snd (scan (rev p) 0) = 0%nat.
Proof.
  induction 1 as [|id l Hi H IH|g l l' Hg H IH H' IH']; intros p s E.
  - destruct p; [reflexivity|discriminate].
  - destruct p as [|x p]; [reflexivity|]. cbn in E. injection E as <- E. cbn [rev].
    rewrite scan_app. cbn. rewrite (cls_item _ Hi). cbn. exact (IH _ _ E).
  - destruct p as [|x p]; [reflexivity|]. cbn in E. injection E as <- E. cbn [rev]. rewrite scan_app.
    cbn [fst snd scan]. rewrite (cls_group _ Hg).
    apply app_split in E as [(x & -> & _)|(x & -> & E)].
    + rewrite (IH p x eq_refl). reflexivity.
    + destruct x as [|y x].
      * rewrite app_nil_r. rewrite (scan_nested _ H). reflexivity.
      * cbn in E. injection E as <- E. rewrite rev_app_distr. cbn [rev].
        rewrite !scan_app. cbn [fst snd]. rewrite (IH' _ _ E). cbn [fst snd scan]. rewrite cls_close.
        cbn [fst snd scan]. rewrite (scan_nested _ H). reflexivity.
Qed.

Definition inside (l : list str) (o i : nat) : Prop :=
  exists pre g body post, l = pre ++ g :: body ++ close g :: post /\
    length pre = o /\ is_group g /\ nest body /\ (o < i <= o + length body)%nat.

Lemma inside_marked l p s o : l = p ++ s -> inside l o (length p) -> In o (fst (scan (rev p) 0)).
Proof.
  intros E (pre & g & body & post & E' & Ho & Hg & Hb & Hi). subst o.
  assert (Hp : exists b, p = pre ++ g :: b /\ exists b', body = b ++ b').
  { assert (Ep : p = firstn (length p) l) by (rewrite E, firstn_app, Nat.sub_diag, firstn_all, app_nil_r; reflexivity).
    rewrite E' in Ep. rewrite firstn_app in Ep. rewrite firstn_all2 in Ep by lia.
    destruct (length p - length pre)%nat as [|k] eqn:Ek; [lia|]. cbn [firstn] in Ep.
    exists (firstn k body). rewrite firstn_app in Ep.
    replace (k - length body)%nat with 0%nat in Ep by lia. cbn [firstn] in Ep. rewrite app_nil_r in Ep.
    split; [exact Ep|]. exists (skipn k body). symmetry. apply firstn_skipn. }
  destruct Hp as (b & -> & b' & Eb). rewrite rev_app_distr. cbn [rev]. rewrite !scan_app.
  cbn [fst snd scan]. rewrite (scan_prefix _ Hb _ _ Eb). rewrite (cls_group _ Hg). cbn [fst snd].
  apply in_or_app. left. apply in_map_iff. exists 0%nat. split; [rewrite rev_length; lia|].
  apply in_or_app. right. left. reflexivity.
Qed.

Lemma marked_inside l : nest l -> forall p x s o, l = p ++ x :: s -> cls_of x <> Closing ->
  In o (fst (scan (rev p) 0)) -> inside l o (length p).
Proof.
  induction 1 as [|id l Hi H IH|g l l' Hg H IH H' IH']; intros p x s o E Hx Ho.
  - destruct p; discriminate.
  - destruct p as [|y p]; [destruct Ho|]. cbn in E. injection E as <- E. cbn [rev] in Ho.
    rewrite scan_app in Ho. cbn [fst snd scan] in Ho. rewrite (cls_item _ Hi) in Ho. cbn [fst snd] in Ho.
    rewrite app_nil_r in Ho. apply in_map_iff in Ho as (o' & <- & Ho).
    destruct (IH _ _ _ _ E Hx Ho) as (pre & g & body & post & -> & Hl & Hg & Hb & Hr).
    exists (id :: pre), g, body, post. cbn [length app]. split; [reflexivity|]. split; [lia|].
    split; [exact Hg|]. split; [exact Hb|]. lia.
  - destruct p as [|y p]; [destruct Ho|]. cbn in E. injection E as <- E. cbn [rev] in Ho.
    rewrite scan_app in Ho. cbn [fst snd scan] in Ho. rewrite (cls_group _ Hg) in Ho.
    apply app_split in E as [(z & Ez & E)|(z & Ez & E)].
    + (* within the group *)
      destruct z as [|z0 z].
      * cbn in E. injection E as -> _. exfalso. apply Hx. apply cls_close.
      * cbn in E. injection E as <- E. rewrite (scan_prefix _ H _ _ Ez) in Ho. cbn [fst snd length] in Ho.
        apply in_app_or in Ho as [Ho|[<-|[]]].
        -- apply in_map_iff in Ho as (o' & <- & Ho).
           destruct (IH _ _ _ _ Ez Hx Ho) as (pre & g0 & body & post & -> & Hl & Hg0 & Hb & Hr).
           exists (g :: pre), g0, body, (post ++ close g :: l'). cbn [length app].
           rewrite <- !app_assoc. cbn [app]. rewrite <- !app_assoc. cbn [app].
           split; [reflexivity|]. split; [lia|]. split; [exact Hg0|]. split; [exact Hb|]. lia.
        -- exists [], g, l, l'. cbn [length app]. split; [reflexivity|]. split; [reflexivity|].
           split; [exact Hg|]. split; [exact H|]. rewrite Ez, app_length. cbn [length]. lia.
    + destruct z as [|z0 z].
      * cbn in E. injection E as <- _. exfalso. apply Hx. apply cls_close.
      * cbn in E. injection E as <- E. subst p. rewrite rev_app_distr in Ho. cbn [rev] in Ho.
        rewrite !scan_app in Ho. cbn [fst snd scan] in Ho. rewrite cls_close in Ho. cbn [fst snd] in Ho.
        assert (Hs : snd (scan (rev z) 0) = 0%nat) by (eapply scan_prefix; [exact H'|exact E]).
        rewrite Hs in Ho. rewrite (scan_nested _ H) in Ho. cbn [fst snd] in Ho.
        rewrite !app_nil_r in Ho. rewrite !map_map in Ho.
        apply in_map_iff in Ho as (o' & <- & Ho).
        destruct (IH' _ _ _ _ E Hx Ho) as (pre & g0 & body & post & -> & Hl & Hg0 & Hb & Hr).
        exists (g :: l ++ close g :: pre), g0, body, post. cbn [length app].
        repeat (rewrite <- !app_assoc; cbn [app]). split; [reflexivity|].
        repeat (rewrite app_length; cbn [length]). rewrite rev_length. cbn [length].
        split; [lia|]. split; [exact Hg0|]. split; [exact Hb|]. lia.
Qed.

Lemma scan_bound rp ign o : In o (fst (scan rp ign)) -> (o < length rp)%nat.
Proof.
  revert ign. induction rp as [|id rp IH]; intros ign H; [destruct H|]. cbn in H |- *.
  destruct (cls_of id); try (apply IH in H; lia). destruct ign; [|apply IH in H; lia].
  destruct H as [<-|H]; [lia|]. apply IH in H. lia.
Qed.
Lemma scan_nodup rp ign : NoDup (fst (scan rp ign)).
Proof.
  revert ign. induction rp as [|id rp IH]; intros ign; [constructor|]. cbn.
  destruct (cls_of id); try apply IH. destruct ign; [|apply IH]. cbn. constructor; [|apply IH].
  intros H. apply scan_bound in H. lia.
Qed.

Lemma nested_known l : nest l -> Forall (fun id => is_close id = Ok true \/ is_item id \/ is_group id) l.
Proof.
  induction 1 as [|id l Hi H IH|g l l' Hg H IH H' IH']; [constructor|constructor; auto|].
  constructor; [auto|]. apply Forall_app. split; [exact IH|]. constructor; [left; reflexivity|exact IH'].
Qed.

End Scan.

Section Durations.
Variable V : Type.
Variable form : list str.
Variable parts : str -> option (tpart V).
Notation is_item := (@is_item V parts).
Notation is_group := (@is_group V parts).
Notation nest := (nested is_item is_group).

Definition at_ (d : list (option Z)) (k : nat) : option Z :=
  match nth_error d k with Some x => x | None => None end.

Lemma add_open_scan l p s ign dt d :
  form = [] :: l -> l = p ++ s -> Forall (fun id => is_close id = Ok true \/ is_item id \/ is_group id) p ->
  add_open V form parts (length p) ign dt d =
    Ok (fold_left (fun d o => add_at (S o) dt d) (fst (scan V parts (rev p) ign)) d).
Proof.
  intros Ef. revert s ign d. induction p as [|id p IH] using rev_ind; intros s ign d El Hk; [reflexivity|].
  rewrite app_length. cbn [length]. rewrite Nat.add_1_r. cbn [add_open].
  rewrite Forall_app in Hk. destruct Hk as [Hk1 Hk2]. inversion Hk2 as [|? ? Hid _]; subst.
  assert (Ei : index ([] :: (p ++ [id]) ++ s) (S (length p)) = Ok id).
  { unfold index. cbn [nth_error]. rewrite <- app_assoc, nth_error_app2, Nat.sub_diag by lia. reflexivity. }
  rewrite Ei. cbn [bind]. rewrite rev_app_distr. cbn [rev app scan].
  assert (Hrec : forall ign d, add_open V ([] :: (p ++ [id]) ++ s) parts (length p) ign dt d =
    Ok (fold_left (fun d o => add_at (S o) dt d) (fst (scan V parts (rev p) ign)) d)).
  { intros. apply (IH (id :: s)); [rewrite <- app_assoc; reflexivity|exact Hk1]. }
  destruct Hid as [Hc|[Hi|Hg]].
  - unfold cls_of. rewrite Hc. cbn [bind]. apply Hrec.
  - rewrite (cls_item V parts _ Hi). destruct Hi as (Hpl & q & Hq1 & Hq2).
    assert (Hc : is_close id = Ok false).
    { destruct id as [|c id]; [destruct Hpl|]. cbn in *. f_equal. lia. }
    rewrite Hc. cbn [bind]. unfold GetPart. rewrite Hq1. cbn [bind]. rewrite Hq2. apply Hrec.
  - rewrite (cls_group V parts _ Hg). destruct Hg as (Hpl & q & Hq1 & Hq2).
    assert (Hc : is_close id = Ok false).
    { destruct id as [|c id]; [destruct Hpl|]. cbn in *. f_equal. lia. }
    rewrite Hc. cbn [bind]. unfold GetPart. rewrite Hq1. cbn [bind].
    rewrite rev_length. destruct (p_kind V q); [| |congruence]; destruct ign; try apply Hrec;
    rewrite Hrec; reflexivity.
Qed.

Lemma add_at_same i dt d : (i < length d)%nat -> at_ (add_at i dt d) i = Some (or_zero (at_ d i) + dt).
Proof.
  intros H. unfold add_at, at_. destruct (nth_error d i) as [[x|]|] eqn:E.
  - rewrite put_same by exact H. reflexivity.
  - rewrite put_same by exact H. reflexivity.
  - apply nth_error_None in E. lia.
Qed.
Lemma add_at_other i k dt d : i <> k -> at_ (add_at i dt d) k = at_ d k.
Proof.
  intros H. unfold add_at, at_. destruct (nth_error d i) as [[x|]|]; rewrite put_other by exact H; reflexivity.
Qed.
Lemma add_at_length i dt d : length (add_at i dt d) = length d.
Proof. unfold add_at. destruct (nth_error d i) as [[x|]|]; apply put_length. Qed.

Lemma fold_add ms dt d : NoDup ms -> Forall (fun o => (S o < length d)%nat) ms ->
  let d' := fold_left (fun d o => add_at (S o) dt d) ms d in
  length d' = length d /\
  (forall o, In o ms -> at_ d' (S o) = Some (or_zero (at_ d (S o)) + dt)) /\
  (forall k, ~ In k (map S ms) -> at_ d' k = at_ d k).
Proof.
  revert d. induction ms as [|m ms IH]; intros d Hn Hf; cbn [fold_left].
  - split; [reflexivity|]. split; [intros o []|reflexivity].
  - inversion Hn as [|? ? Hm Hn']; subst. inversion Hf as [|? ? Hlt Hf']; subst.
    destruct (IH (add_at (S m) dt d)) as (L & A & B); [exact Hn'| |].
    { rewrite Forall_forall in *. intros o Ho. rewrite add_at_length. auto. }
    cbn zeta. split; [rewrite L; apply add_at_length|]. split.
    + intros o [<-|Ho].
      * rewrite B; [apply add_at_same, Hlt|]. intros Hi. apply in_map_iff in Hi as (o & E & Ho).
        injection E as ->. contradiction.
      * rewrite A by exact Ho. rewrite add_at_other; [reflexivity|]. intros E. injection E as ->. contradiction.
    + intros k Hk. cbn in Hk. rewrite B by tauto. apply add_at_other. intros E. apply Hk. left. exact E.
Qed.

Lemma inc_ok i dt d x : at_ d i = Some x -> inc i dt d = Ok (add_at i dt d) /\ (i < length d)%nat.
Proof.
  unfold at_, inc, add_at. intros H. destruct (nth_error d i) as [[y|]|] eqn:E; try discriminate.
  split; [reflexivity|]. apply nth_error_Some. congruence.
Qed.

Lemma contains_inside l o i : form = [] :: l ->
  contains form parts o (S i) <-> exists o', o = S o' /\ inside V parts l o' i.
Proof.
  intros Ef. unfold contains, inside. split.
  - intros (pre & g & body & post & E & Ho & Hg & Hb & Hr). rewrite Ef in E.
    destruct pre as [|y pre].
    + cbn in E. injection E as E _. subst g. destruct Hg as [[] _].
    + cbn in E. injection E as <- E. cbn in Ho. exists (length pre). split; [congruence|].
      exists pre, g, body, post. split; [exact E|]. split; [reflexivity|]. split; [exact Hg|]. split; [exact Hb|]. cbn in Ho; lia.
  - intros (o' & -> & pre & g & body & post & E & Ho & Hg & Hb & Hr).
    exists ([] :: pre), g, body, post. rewrite Ef, E. split; [reflexivity|]. cbn [length]. split; [lia|].
    split; [exact Hg|]. split; [exact Hb|]. lia.
Qed.

Lemma AddDuration_spec dt s i id x0 xi :
  form_ok form parts -> sized form (s_vars V s) -> s_q V s = Some (S i) -> item_at form parts (S i) id ->
  duration (s_vars V s) 0 = Some x0 -> duration (s_vars V s) (S i) = Some xi ->
  exists d', AddDuration V form parts dt s = (set_vars V (mkVars V (vv V (s_vars V s)) d') s, Ok tt) /\
    length d' = length form /\
    forall k,
      (k = 0%nat \/ k = S i \/ contains form parts k (S i) ->
         at_ d' k = Some (or_zero (duration (s_vars V s) k) + dt)) /\
      (~ (k = 0%nat \/ k = S i \/ contains form parts k (S i)) -> at_ d' k = duration (s_vars V s) k).
Proof.
  intros (l & Ef & Hn) Hsz Hq [Hid Hit] H0 Hi. unfold AddDuration. rewrite Hq.
  set (d := dur V (s_vars V s)) in *.
  change (duration (s_vars V s)) with (at_ d) in *.
  destruct (inc_ok (S i) dt d xi Hi) as [E1 L1]. rewrite E1. cbn [bind].
  rewrite Ef in Hid. cbn [nth_error] in Hid.
  apply nth_error_split in Hid as (p & s0 & El & Hp).
  pose proof (nested_known V parts l Hn) as Hk. rewrite El in Hk. apply Forall_app in Hk as [Hk _].
  pose proof (add_open_scan l p (id :: s0) 0 dt (add_at (S i) dt d) Ef El Hk) as Eo.
  rewrite Hp in Eo. rewrite Eo. cbn [bind]. clear Eo.
  set (ms := fst (scan V parts (rev p) 0)).
  assert (Hsz' : length d = length form) by exact Hsz.
  assert (Hms : Forall (fun o => (S o < length (add_at (S i) dt d))%nat) ms).
  { apply Forall_forall. intros o Ho. apply scan_bound in Ho. rewrite rev_length in Ho.
    rewrite add_at_length. lia. }
  destruct (fold_add ms dt (add_at (S i) dt d) (scan_nodup V parts _ _) Hms) as (L & A & B).
  set (d1 := fold_left _ ms _) in *. cbn zeta in L, A, B.
  assert (Hcon : forall k, contains form parts k (S i) <-> In k (map S ms)).
  { intros k. rewrite (contains_inside l) by exact Ef. rewrite in_map_iff. split.
    - intros (o & -> & Ho). exists o. split; [reflexivity|]. apply (inside_marked V parts l p (id :: s0)); [exact El|].
      rewrite Hp. exact Ho.
    - intros (o & <- & Ho). exists o. split; [reflexivity|]. rewrite <- Hp.
      apply (marked_inside V parts l Hn p id s0); [exact El| |exact Ho].
      rewrite (cls_item V parts _ Hit). discriminate. }
  assert (Hni : ~ In (S i) (map S ms)).
  { intros H. apply in_map_iff in H as (o & E & Ho). injection E as ->.
    apply scan_bound in Ho. rewrite rev_length in Ho. lia. }
  assert (Hn0 : ~ In 0%nat (map S ms)).
  { intros H. apply in_map_iff in H as (o & E & _). discriminate. }
  assert (E0 : at_ d1 0 = Some x0) by (rewrite B by exact Hn0; rewrite add_at_other by discriminate; exact H0).
  destruct (inc_ok 0 dt d1 x0 E0) as [E2 L2]. rewrite E2.
  eexists. split; [reflexivity|]. split.
  { rewrite add_at_length, L, add_at_length. exact Hsz. }
  intros k. destruct (Nat.eq_dec k 0) as [->|Hk0].
  - split; [|tauto]. intros _. rewrite add_at_same by exact L2. rewrite E0, H0. reflexivity.
  - rewrite add_at_other by congruence. destruct (Nat.eq_dec k (S i)) as [->|Hki].
    + split; [|tauto]. intros _. rewrite B by exact Hni. apply add_at_same, L1.
    + split.
      * intros [?|[?|Hc]]; try contradiction. apply Hcon in Hc. apply in_map_iff in Hc as (o & <- & Ho).
        rewrite A by exact Ho. rewrite add_at_other by congruence. reflexivity.
      * intros Hno. rewrite B; [apply add_at_other; congruence|]. intros Hi'. apply Hno. right. right.
        apply Hcon, Hi'.
Qed.

End Durations.
