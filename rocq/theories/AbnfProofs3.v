(** Proofs about validating data. *)
From Coq Require Import List Arith Bool ZArith Lia.
From Verif Require Import Py Abnf AbnfSpec AbnfProofs.
Import ListNotations.
Open Scope nat_scope.

Lemma lower_same a b : lower a = lower b -> same_letter a b.
Proof.
  unfold lower, same_letter.
  destruct (Z.leb_spec 65 a), (Z.leb_spec a 90), (Z.leb_spec 65 b), (Z.leb_spec b 90); cbn [andb]; intro LE; lia.
Qed.
Lemma lowers_same : forall s t, lowers t = lowers s -> Forall2 same_letter s t.
Proof.
  induction s as [|a s IH]; intros [|b t] H; try discriminate H; [constructor|]. cbn in H. injection H as H1 H2.
  constructor; [apply lower_same; congruence | apply IH; exact H2].
Qed.
Lemma firstn_add {A} : forall i n (l : list A), firstn (i + n) l = firstn i l ++ firstn n (skipn i l).
Proof. induction i as [|i IH]; intros n [|x l]; cbn; try rewrite firstn_nil; try reflexivity. f_equal. apply IH. Qed.

Section Validate.
Variable R : list (option str * body).
Variable data : str.
Hypothesis SR : sensible R.
Hypothesis SD : Forall (fun c => 0 <= c <= 1114111)%Z data.
Variable root : nat.

(** what a frame may still stand for *)
Definition vframe (f : nat * pos) (s : str) : Prop :=
  match nth_error R (fst f), snd f with
  | Some (_, Sequence l), At k => S k < length l /\ derives R (skipn (S k) l) s
  | Some (_, Alternative l), At k => S k < length l /\ exists q, In q (skipn (S k) l) /\ derive R q s
  | Some (_, Repeat mn mx q), At k =>
      exists j, mn <= S k + j /\ (forall m, mx = Some m -> S k + j <= m) /\ derives R (repeat q j) s
  | Some (_, Sequence _), Left _ _ | Some (_, Alternative _), Left _ _ | Some (_, Repeat _ _ _), Left _ _ => False
  | _, _ => derive R (fst f) s
  end.
(** the positions that occur on stacks *)
Definition vok (f : nat * pos) : Prop :=
  match nth_error R (fst f), snd f with
  | Some (_, Sequence l), At k | Some (_, Alternative l), At k => S k < length l
  | Some (_, Repeat mn mx q), At k => forall m, mx = Some m -> S k <= m
  | _, Left _ _ => False
  | _, _ => True
  end.
Definition good (x : state) : Prop :=
  fst x <= length data /\ Forall vok (snd x) /\
  forall ss, Forall2 vframe (snd x) ss -> derive R root (firstn (fst x) data ++ concat ss).
Lemma vframe_start q s : vframe (q, Start) s <-> derive R q s.
Proof. unfold vframe. cbn [fst snd]. destruct (nth_error R q) as [[nm b]|]; [destruct b|]; reflexivity. Qed.
Lemma vok_start q : vok (q, Start).
Proof. unfold vok. cbn [fst snd]. destruct (nth_error R q) as [[nm b]|]; [destruct b|]; exact I. Qed.
Lemma In_skipn_S {A} : forall k (l : list A) x q, nth_error l k = Some q -> In x (skipn k l) <-> q = x \/ In x (skipn (S k) l).
Proof. intros k l x q H. rewrite (skipn_nth _ _ _ H). reflexivity. Qed.

Lemma match_firstn i s : firstn (length s) (skipn i data) = s -> i <= length data ->
  i + length s <= length data /\ firstn (i + length s) data = firstn i data ++ s.
Proof.
  intros H L. assert (E := f_equal (@length Z) H). rewrite firstn_length, skipn_length in E.
  split; [lia|]. rewrite firstn_add, H. reflexivity.
Qed.
Lemma good_consume i r p stack n s : good (i, (r, p) :: stack) -> i + n <= length data ->
  firstn (i + n) data = firstn i data ++ s -> vframe (r, p) s -> good (i + n, stack).
Proof.
  intros (L & V & G) LN E F. split; [exact LN|]. split; [inversion V; assumption|]. cbn [fst snd] in *. intros ss FS.
  rewrite E, <- app_assoc. exact (G (s :: ss) (Forall2_cons _ _ F FS)).
Qed.
Lemma good_replace i r p stack new : good (i, (r, p) :: stack) -> Forall vok new ->
  (forall ss, Forall2 vframe new ss -> vframe (r, p) (concat ss)) -> good (i, new ++ stack).
Proof.
  intros (L & V & G) VN F. split; [exact L|]. cbn [fst snd] in *. split; [apply Forall_app; split; [exact VN | inversion V; assumption]|].
  intros ss FS. apply Forall2_app_inv_l in FS. destruct FS as (s1 & s2 & F1 & F2 & ->).
  rewrite concat_app. exact (G (concat s1 :: s2) (Forall2_cons _ _ (F _ F1) F2)).
Qed.

Lemma advance_good i r p stack new : good (i, (r, p) :: stack) -> advance R data i r p stack = inl new -> Forall good new /\ new <> [].
Proof.
  intros G H. unfold advance in H.
  assert (V : vok (r, p)) by (destruct G as (_ & V & _); inversion V; assumption).
  assert (LI : i <= length data) by (destruct G as (L & _); exact L).
  destruct (nth_error R r) as [[nm b]|] eqn:N; [|discriminate H].
  assert (FR := eq_refl (vframe (r, p))). unfold vframe in FR at 2. cbn [fst snd] in FR. rewrite N in FR.
  unfold vok in V. cbn [fst snd] in V. rewrite N in V.
  destruct b as [|s|s|lo hi|l|l|mn mx q|s|q]; try discriminate H.
  - destruct (str_eqb _ s) eqn:E in H; [|discriminate H]. apply Py.str_eqb_eq in E. injection H as <-. split; [|discriminate].
    destruct (match_firstn i s E LI) as [L1 E1]. constructor; [|constructor].
    eapply good_consume; [exact G | exact L1 | exact E1|]. rewrite FR. eapply derive_terminal; exact N.
  - destruct (str_eqb _ (lowers s)) eqn:E in H; [|discriminate H]. apply Py.str_eqb_eq in E. injection H as <-. split; [|discriminate].
    assert (LE : length (firstn (length s) (skipn i data)) = length s).
    { assert (E2 := f_equal (@length Z) E). unfold lowers in E2. rewrite !map_length in E2. exact E2. }
    assert (L1 : i + length s <= length data) by (rewrite firstn_length, skipn_length in LE; lia).
    constructor; [|constructor]. eapply good_consume; [exact G | exact L1 | apply firstn_add|].
    rewrite FR. eapply derive_literal; [exact N | apply lowers_same; exact E].
  - destruct (nth_error data i) as [c|] eqn:D; [|discriminate H].
    destruct (Z.leb_spec lo c); [|discriminate H]. destruct (Z.leb_spec c hi); [|discriminate H]. injection H as <-. split; [|discriminate].
    assert (LT : i < length data) by (apply nth_error_Some; rewrite D; discriminate).
    constructor; [|constructor]. replace (S i) with (i + 1) by lia. eapply good_consume; [exact G | lia | |].
    + rewrite firstn_add, (skipn_nth _ _ _ D). reflexivity.
    + rewrite FR. eapply derive_range; [exact N | lia|]. rewrite Forall_forall in SD. apply SD. eapply nth_error_In; exact D.
  - set (k := match p with At k => S k | _ => 0 end) in H.
    assert (FK : forall s, derives R (skipn k l) s -> vframe (r, p) s).
    { intros s D. rewrite FR. unfold k in D. destruct p as [|k'|]; [eapply derive_sequence; [exact N | exact D] | split; [exact V | exact D] | destruct V]. }
    destruct (nth_error l k) as [q|] eqn:NK; injection H as <-; (split; [|discriminate]); (constructor; [|constructor]).
    + destruct (Nat.ltb_spec (S k) (length l)) as [L|L].
      * apply (good_replace i r p stack [(q, Start); (r, At k)] G).
        { constructor; [apply vok_start|]. constructor; [|constructor]. unfold vok. cbn [fst snd]. rewrite N. exact L. }
        intros ss F. inversion F as [|? s1 ? ss1 F1 F2]; subst. inversion F2 as [|? s2 ? ss2 F3 F4]; subst. inversion F4; subst.
        cbn [concat]. rewrite app_nil_r. apply FK. rewrite (skipn_nth _ _ _ NK). apply vframe_start in F1. constructor; [exact F1|].
        unfold vframe in F3. cbn [fst snd] in F3. rewrite N in F3. exact (proj2 F3).
      * apply (good_replace i r p stack [(q, Start)] G); [constructor; [apply vok_start | constructor]|].
        intros ss F. inversion F as [|? s1 ? ss1 F1 F2]; subst. inversion F2; subst. cbn [concat]. apply FK.
        rewrite (skipn_nth _ _ _ NK). apply vframe_start in F1. rewrite (skipn_all2 l) by lia. constructor; [exact F1 | constructor].
    + apply (good_replace i r p stack [] G); [constructor|]. intros ss F. inversion F; subst. apply FK. rewrite (nth_none_skipn _ _ NK). constructor.
  - set (k := match p with At k => S k | _ => 0 end) in H.
    assert (FK : forall s q, In q (skipn k l) -> derive R q s -> vframe (r, p) s).
    { intros s q I D. rewrite FR. unfold k in I. destruct p as [|k'|]; [eapply derive_alternative; [exact N | exact I | exact D] | split; [exact V | eauto] | destruct V]. }
    destruct (nth_error l k) as [q|] eqn:NK.
    + injection H as <-. split; [|destruct (S k <? length l); discriminate]. apply Forall_app. split; [|constructor; [|constructor]].
      * destruct (Nat.ltb_spec (S k) (length l)) as [L|L]; [constructor; [|constructor] | constructor].
        apply (good_replace i r p stack [(r, At k)] G).
        { constructor; [|constructor]. unfold vok. cbn [fst snd]. rewrite N. exact L. }
        intros ss F. inversion F as [|? s1 ? ss1 F1 F2]; subst. inversion F2; subst. cbn [concat]. rewrite app_nil_r.
        unfold vframe in F1. cbn [fst snd] in F1. rewrite N in F1. destruct F1 as (_ & q' & I & D).
        apply (FK _ q'); [|exact D]. apply (In_skipn_S k l q' q NK). right. exact I.
      * apply (good_replace i r p stack [(q, Start)] G); [constructor; [apply vok_start | constructor]|].
        intros ss F. inversion F as [|? s1 ? ss1 F1 F2]; subst. inversion F2; subst. cbn [concat]. rewrite app_nil_r.
        apply vframe_start in F1. apply (FK _ q); [|exact F1]. apply (In_skipn_S k l q q NK). left. reflexivity.
    + exfalso. apply nth_error_None in NK. pose proof (SR _ _ _ N) as NE. cbn in NE. unfold k in NK.
      destruct p as [|k'|]; [destruct l; [congruence | cbn in NK; lia] | lia | exact V].
  - set (k := match p with At k => S k | _ => 0 end) in H.
    assert (FK : forall s j, mn <= k + j -> (forall m, mx = Some m -> k + j <= m) -> derives R (repeat q j) s -> vframe (r, p) s).
    { intros s j L1 L2 D. rewrite FR. unfold k in L1, L2. destruct p as [|k'|]; [eapply derive_repeat; [exact N | exact L1 | exact L2 | exact D] | exists j; auto | destruct V]. }
    assert (VK : forall m, mx = Some m -> k <= m).
    { unfold k. destruct p as [|k'|]; [lia | exact V | destruct V]. }
    assert (MORE : (forall m, mx = Some m -> S k <= m) -> good (i, (q, Start) :: (r, At k) :: stack)).
    { intro LM. apply (good_replace i r p stack [(q, Start); (r, At k)] G).
      { constructor; [apply vok_start|]. constructor; [|constructor]. unfold vok. cbn [fst snd]. rewrite N. exact LM. }
      intros ss F. inversion F as [|? s1 ? ss1 F1 F2]; subst. inversion F2 as [|? s2 ? ss2 F3 F4]; subst. inversion F4; subst.
      cbn [concat]. rewrite app_nil_r. apply vframe_start in F1. unfold vframe in F3. cbn [fst snd] in F3. rewrite N in F3.
      destruct F3 as (j & L1 & L2 & D). apply (FK _ (S j)); [lia | intros m E; pose proof (L2 m E); lia|]. cbn [repeat]. constructor; assumption. }
    assert (STOP : mn <= k -> good (i, stack)).
    { intro LM. apply (good_replace i r p stack [] G); [constructor|]. intros ss F. inversion F; subst. cbn [concat].
      apply (FK _ 0); [lia | intros m E; pose proof (VK m E); lia | constructor]. }
    pose proof (SR _ _ _ N) as SN. cbn in SN.
    destruct (Nat.ltb_spec k mn) as [L|L].
    + injection H as <-. split; [|discriminate]. constructor; [|constructor]. apply MORE. intros m ->. lia.
    + destruct mx as [m|].
      * destruct (Nat.ltb_spec k m) as [L2|L2]; injection H as <-; (split; [|discriminate]).
        -- constructor; [apply STOP; exact L|]. constructor; [|constructor]. apply MORE. intros m' [= <-]. lia.
        -- constructor; [apply STOP; exact L | constructor].
      * injection H as <-. split; [|discriminate]. constructor; [apply STOP; exact L|]. constructor; [|constructor]. apply MORE. discriminate.
  - injection H as <-. split; [|discriminate]. constructor; [|constructor].
    assert (FK : forall s, derive R q s -> vframe (r, p) s).
    { intros s D. rewrite FR. destruct p; eapply derive_alias; eauto. }
    apply (good_replace i r p stack [(q, Start)] G); [constructor; [apply vok_start | constructor]|].
    intros ss F. inversion F as [|? s1 ? ss1 F1 F2]; subst. inversion F2; subst. cbn [concat]. rewrite app_nil_r. apply FK. apply vframe_start. exact F1.
Qed.

Lemma validate_good first (P : picks first) : forall fuel states, Forall good states -> states <> [] ->
  match validate R data first fuel states with
  | Accepted => exists i, i <= length data /\ derive R root (firstn i data)
  | Failed e => e = NameError
  | Undecided => True
  end.
Proof.
  induction fuel as [|fuel IH]; intros states G NE; [exact I|]. cbn [validate].
  pose proof (P states) as PS. destruct (first states) as [[[i stack] rest]|]; [|destruct (NE PS)].
  destruct PS as ((a & b & -> & ->) & _).
  apply Forall_app in G. destruct G as [GA GB]. inversion GB as [|? ? G1 G2]; subst.
  destruct stack as [|[r p] stack].
  - destruct G1 as (L & _ & D). exists i. split; [exact L|]. specialize (D [] (Forall2_nil _)). cbn in D. rewrite app_nil_r in D. exact D.
  - destruct (advance R data i r p stack) as [new|e] eqn:A.
    + destruct (advance_good _ _ _ _ _ G1 A) as [GN NN]. apply IH.
      * apply Forall_app; split; [apply Forall_app; split; assumption | exact GN].
      * intro E. apply app_eq_nil in E. destruct E as [_ E]. exact (NN E).
    + unfold advance in A. destruct (nth_error R r) as [[nm bd]|]; [|injection A as <-; reflexivity].
      destruct bd; repeat match type of A with
        | (if ?c then _ else _) = _ => destruct c
        | match ?x with _ => _ end = _ => destruct x
        | (let k := _ in _) = _ => cbv zeta in A
        end; try discriminate A; injection A as <-; reflexivity.
Qed.
End Validate.
