(** Proofs about ellipses, bounds, offsets and the text forms of coordinates. *)
From Coq Require Import QArith Lqa.
From Verif Require Import Py Iso Dec Shapes ShapesSpec ShapesProofs.
From Verif Require XmlCharsSpec XmlCharsProofs2.
Import XmlCharsSpec.
Open Scope Z_scope.

Lemma ellipse_eq dx dy rx ry : 0 < rx -> 0 < ry ->
  (dx * dx * ry * ry + dy * dy * rx * rx <= rx * rx * ry * ry <->
   (((inject_Z dx / inject_Z rx) ^ 2 + (inject_Z dy / inject_Z ry) ^ 2) <= 1)%Q).
Proof.
  intros Hx Hy. destruct rx as [|p|p]; try lia. destruct ry as [|q|q]; try lia.
  assert (P : forall z r, (((inject_Z z / inject_Z (Zpos r)) ^ 2) = (z * 1 * (z * 1) # (1 * r) * (1 * r)))%Q) by reflexivity.
  rewrite !P. unfold Qle, Qplus. cbn [Qnum Qden]. rewrite !Pos2Z.inj_mul.
  match goal with |- ?A <= ?B <-> ?C <= ?D => replace C with A by ring; replace D with B by ring end. reflexivity.
Qed.

Lemma TestEllipse_spec w h c0 c1 c2 c3 cs x0 y0 rx ry x y :
  pixels c0 w x0 -> pixels c1 h y0 -> pixels c2 w rx -> pixels c3 h ry -> 0 < rx -> 0 < ry ->
  exists b, TestEllipse (c0 :: c1 :: c2 :: c3 :: cs) x y w h = Ok b /\ (b = true <-> in_ellipse (x0, y0) rx ry (x, y)).
Proof.
  intros H0 H1 H2 H3 Hx Hy. apply GetValue_pixels in H0, H1, H2, H3. unfold TestEllipse.
  rewrite H0. cbn [bind]. rewrite H1. cbn [bind]. rewrite H2. cbn [bind]. rewrite H3. cbn [bind].
  eexists. split; [reflexivity|]. rewrite Z.leb_le. now apply ellipse_eq.
Qed.

(** ** Text forms *)
Lemma lstrip_id s : match s with c :: _ => is_space c = false | [] => True end -> lstrip s = s.
Proof. destruct s as [|c s]; [reflexivity|]. cbn. now intros ->. Qed.

Lemma strip_id s : Forall (fun c => is_space c = false) s -> strip s = s.
Proof.
  intros H. unfold strip. rewrite (lstrip_id s) by (destruct s; [exact I|apply Forall_cons_iff in H; apply H]).
  apply Forall_rev in H. rewrite (lstrip_id (rev s)) by (destruct (rev s); [exact I|apply Forall_cons_iff in H; apply H]).
  apply rev_involutive.
Qed.

Lemma dec_not_space c : is_dec c -> is_space c = false.
Proof. unfold is_dec, is_space. lia. Qed.

Lemma length_loop_digits ds rest : Forall is_dec ds -> forall v,
  length_loop (ds ++ rest) None v = length_loop rest None (rev ds ++ v).
Proof.
  induction 1 as [|c ds Hc _ IH]; intros v; [reflexivity|]. cbn [app length_loop].
  replace (isdigit c) with true by (unfold is_dec in Hc; unfold isdigit; lia). rewrite IH. cbn [rev]. now rewrite <- app_assoc.
Qed.

Lemma length_str_chars l : 0 <= l_value l -> Forall (fun c => is_space c = false /\ c <> 44) (length_str l).
Proof.
  intros H. assert (G : Forall (fun c => is_space c = false /\ c <> 44) (pystr (l_value l))).
  { unfold pystr. replace (l_value l <? 0) with false by lia. apply Forall_impl with (2 := fmt_digits _ H).
    intros c Hc. split; [now apply dec_not_space|unfold is_dec in Hc; lia]. }
  unfold length_str. destruct (l_type l); [exact G|]. apply Forall_app. split; [exact G|].
  change (lit "%") with [37]. constructor; [|constructor]. split; [reflexivity|lia].
Qed.

Lemma LengthType_str l : 0 <= l_value l -> LengthType (length_str l) None = Ok l.
Proof.
  intros H. unfold LengthType. rewrite strip_id.
  2:{ eapply Forall_impl; [|exact (length_str_chars l H)]. intros a [Ha _]. exact Ha. }
  unfold length_str, pystr. replace (l_value l <? 0) with false by lia.
  assert (E : exists c r, rev (fmt (l_value l)) = c :: r).
  { destruct (rev (fmt (l_value l))) eqn:E; [|eauto]. apply (f_equal (@rev Z)) in E. rewrite rev_involutive in E.
    destruct (fmt_not_nil _ E). }
  destruct (fmt_cons (l_value l)) as (c & s & Ec).
  destruct l as [t n]. cbn [l_type l_value] in *. destruct t.
  - rewrite <- (app_nil_r (fmt n)). rewrite length_loop_digits by now apply fmt_digits. cbn [length_loop].
    rewrite app_nil_r, rev_involutive. rewrite Ec. rewrite <- Ec. now rewrite dval_fmt.
  - rewrite length_loop_digits by now apply fmt_digits. change (lit "%") with [37]. cbn [length_loop].
    change (isdigit 37) with false. cbn [Z.eqb Pos.eqb]. rewrite app_nil_r, rev_involutive. rewrite Ec. rewrite <- Ec.
    now rewrite dval_fmt.
Qed.

Lemma split_commas_join l : forall cur, l <> [] -> Forall (fun s : str => ~ In 44 s) l ->
  split_commas (join_commas l) cur = match l with [] => [] | s :: l' => (rev cur ++ s) :: l' end.
Proof.
  assert (G : forall s : str, ~ In 44 s -> forall cur t, split_commas (s ++ t) cur = split_commas t (rev s ++ cur)).
  { induction s as [|c s IH]; intros Hs cur t; [reflexivity|]. cbn [app split_commas].
    destruct (c =? 44) eqn:E; [exfalso; apply Hs; left; lia|]. rewrite IH by (cbn in Hs; tauto).
    cbn [rev]. now rewrite <- app_assoc. }
  induction l as [|s l IH]; intros cur Hl HF; [congruence|]. apply Forall_cons_iff in HF as [Hs HF].
  destruct l as [|s' l].
  - cbn [join_commas]. rewrite <- (app_nil_r s) at 1. rewrite G by exact Hs. cbn [split_commas].
    now rewrite rev_app_distr, rev_involutive.
  - change (join_commas (s :: s' :: l)) with (s ++ 44 :: join_commas (s' :: l)). rewrite G by exact Hs.
    cbn [split_commas Z.eqb Pos.eqb]. rewrite IH by (try discriminate; exact HF).
    now rewrite rev_app_distr, rev_involutive.
Qed.

Lemma map_result_ok {A B} (f : A -> result B) l m : Forall2 (fun a b => f a = Ok b) l m -> map_result f l = Ok m.
Proof. induction 1 as [|a b l m H _ IH]; [reflexivity|]. cbn [map_result]. now rewrite H, IH. Qed.

Lemma Coords_str cs : (2 <= length cs)%nat -> Forall (fun l => 0 <= l_value l) cs -> Coords (coords_str cs) = Ok cs.
Proof.
  intros HL HF. unfold Coords, coords_str.
  replace (mem 44 (join_commas (map length_str cs))) with true.
  2:{ symmetry. apply mem_In. destruct cs as [|a [|b cs]]; cbn [length] in HL; try lia.
      cbn [map join_commas]. apply in_app_iff. right. now left. }
  rewrite split_commas_join.
  - destruct cs as [|a cs]; [cbn in HL; lia|]. cbn [map rev app].
    change (length_str a :: map length_str cs) with (map length_str (a :: cs)).
    apply map_result_ok. clear HL. induction HF as [|l cs' Hl _ IH]; constructor; [|exact IH].
    rewrite strip_id; [now apply LengthType_str|].
    eapply Forall_impl; [|exact (length_str_chars l Hl)]. intros x [Hx _]. exact Hx.
  - destruct cs; [cbn in HL; lia|discriminate].
  - apply Forall_map. eapply Forall_impl; [|exact HF]. intros l Hl Hi.
    pose proof (length_str_chars l Hl) as G. rewrite Forall_forall in G. apply G in Hi. lia.
Qed.

(** ** Bounds and offsets *)
Lemma bounds_poly_loops fuel cs o : (4 <= length cs)%nat -> Forall (fun l => l_type l = Pixel) cs ->
  bounds_loop fuel cs 1 o = Err OutOfFuel.
Proof.
  intros HL HF. revert o. induction fuel as [|fuel IH]; intros [[[o0 o1] o2] o3]; [reflexivity|]. cbn [bounds_loop].
  replace (2 * 1 + 1 <? length cs)%nat with true by (symmetry; apply Nat.ltb_lt; lia).
  destruct cs as [|c0 [|c1 [|c2 [|c3 cs]]]]; cbn [length] in HL; try lia.
  unfold value_at, index. cbn [Nat.mul Nat.add nth_error bind].
  apply Forall_cons_iff in HF as [_ HF]. apply Forall_cons_iff in HF as [_ HF].
  apply Forall_cons_iff in HF as [E2 HF]. apply Forall_cons_iff in HF as [E3 HF].
  unfold GetValue. rewrite E2, E3. cbn [bind].
  destruct (l_value c2 <? o0), (l_value c2 >? o2), (l_value c3 <? o1), (l_value c3 >? o3); apply IH.
Qed.

Lemma offset_poly_loops fuel xo yo : forall cs, (2 <= length cs)%nat -> Forall (fun l => l_type l = Pixel) cs ->
  offset_loop fuel cs 0 xo yo = Err OutOfFuel.
Proof.
  induction fuel as [|fuel IH]; intros cs HL HF; [reflexivity|]. cbn [offset_loop].
  replace (2 * 0 + 1 <? length cs)%nat with true by (symmetry; apply Nat.ltb_lt; lia).
  destruct cs as [|c0 [|c1 cs]]; cbn [length] in HL; try lia.
  apply Forall_cons_iff in HF as [E0 HF]. apply Forall_cons_iff in HF as [E1 HF].
  unfold add_at, index, Add, set_nth. cbn [Nat.mul Nat.add nth_error bind]. rewrite E0.
  cbn [bind length Nat.ltb Nat.leb firstn skipn app nth_error]. rewrite E1.
  cbn [bind length Nat.ltb Nat.leb firstn skipn app nth_error]. apply IH.
  - cbn. lia.
  - constructor; [reflexivity|]. constructor; [reflexivity|exact HF].
Qed.

(** ** Scanning numbers *)
Definition sep_char (c : Z) : bool := negb (is_num_char c).

Lemma map_result_app {A B} (f : A -> result B) l1 l2 : map_result f (l1 ++ l2) = (a <- map_result f l1 ;; b <- map_result f l2 ;; Ok (a ++ b)).
Proof.
  induction l1 as [|x l1 IH]; cbn [app map_result bind]; [now destruct (map_result f l2)|].
  destruct (f x); [|reflexivity]. cbn [bind]. rewrite IH. destruct (map_result f l1); [|reflexivity]. cbn [bind].
  now destruct (map_result f l2).
Qed.

Lemma scan_words s :
  (forall v cs, v <> [] -> scan s false v cs = (l <- map_result int_float (words_loop sep_char v s) ;; Ok (rev cs ++ l))) /\
  (forall v cs, v <> [] -> scan s true v cs = (l <- map_result int_float (rev v :: words_loop sep_char [] s) ;; Ok (rev cs ++ l))).
Proof.
  induction s as [|c s (I0 & I1)].
  - split; intros [|x v] cs Hv; try congruence; cbn [scan words_loop map_result].
    + destruct (int_float (rev (x :: v))); reflexivity.
    + destruct (int_float (rev (x :: v))); reflexivity.
  - split; intros v cs Hv; cbn [scan words_loop]; unfold sep_char at 1; destruct (is_num_char c) eqn:E; cbn [negb andb].
    + apply I0. discriminate.
    + rewrite I1 by exact Hv. destruct v; [congruence|]. reflexivity.
    + destruct v as [|x v]; [congruence|]. cbn [andb]. cbn [map_result].
      destruct (int_float (rev (x :: v))) as [n|e]; cbn [bind]; [|reflexivity].
      rewrite I0 by discriminate. destruct (map_result int_float (words_loop sep_char [c] s)); cbn [bind]; [|reflexivity].
      cbn [rev]. now rewrite <- app_assoc.
    + apply I1, Hv.
Qed.

Lemma scan_start s : match s with c :: _ => is_num_char c = true | [] => True end ->
  scan s false [] [] = map_result int_float (words sep_char s).
Proof.
  destruct s as [|c s]; [reflexivity|]. intros E. cbn [scan]. rewrite E. cbn [andb].
  rewrite (proj1 (scan_words s)) by discriminate. unfold words. cbn [words_loop]. unfold sep_char at 2. rewrite E. cbn [negb rev app].
  destruct (map_result _ _); reflexivity.
Qed.

Lemma num_char_iff c : is_num_char c = true <-> num_char c.
Proof. unfold is_num_char. rewrite mem_In. unfold num_char. cbn. lia. Qed.

Lemma split_dot_spec s : forall cur, 
  match split_dot s cur with
  | (i, None) => i = rev cur ++ s /\ ~ In 46 s
  | (i, Some f) => exists u, s = u ++ 46 :: f /\ ~ In 46 u /\ i = rev cur ++ u
  end.
Proof.
  induction s as [|c s IH]; intros cur; cbn [split_dot]; [rewrite app_nil_r; now split|].
  destruct (c =? 46) eqn:E.
  - exists []. rewrite app_nil_r. cbn. split; [f_equal; lia|]. now split.
  - specialize (IH (c :: cur)). destruct (split_dot s (c :: cur)) as [i [f|]].
    + destruct IH as (u & -> & Hu & ->). exists (c :: u). cbn [rev]. rewrite <- app_assoc. cbn.
      split; [reflexivity|]. split; [intros [H|H]; [lia|tauto]|reflexivity].
    + destruct IH as [-> Hs]. cbn [rev]. rewrite <- app_assoc. cbn. split; [reflexivity|intros [H|H]; [lia|tauto]].
Qed.

Lemma int_float_iff s n : s <> [] -> Forall num_char s -> (int_float s = Ok n <-> int_part s n).
Proof.
  intros Hs HF. unfold int_float. pose proof (split_dot_spec s []) as G.
  assert (HD : forall u : str, Forall num_char u -> ~ In 46 u -> Forall (fun c => 48 <= c <= 57) u).
  { intros u Hu Hn. rewrite Forall_forall in *. intros c Hc. destruct (Hu c Hc) as [H|H]; [exact H|]. subst. tauto. }
  assert (HU : forall u v u' v' : str, u ++ 46 :: v = u' ++ 46 :: v' -> ~ In 46 u -> ~ In 46 u' -> u = u' /\ v = v').
  { induction u as [|a u IH]; intros v [|a' u'] v' E H1 H2; cbn in E.
    - injection E as ->. now split.
    - injection E as <- E. exfalso. apply H2. now left.
    - injection E as -> E. exfalso. apply H1. now left.
    - injection E as <- E. apply IH in E as [-> ->]; [now split|cbn in H1; tauto|cbn in H2; tauto]. }
  assert (HN : forall u : str, Forall (fun c => 48 <= c <= 57) u -> ~ In 46 u).
  { intros u Hu Hi. rewrite Forall_forall in Hu. apply Hu in Hi. lia. }
  destruct (split_dot s []) as [i [f|]]; cbn [rev app] in G.
  - destruct G as (u & -> & Hu & ->). apply Forall_app in HF as [HF1 HF2]. apply Forall_cons_iff in HF2 as [_ HF2].
    destruct (mem 46 f) eqn:Em.
    + split; [discriminate|]. intros (i & g & Hi & Hg & _ & [(E & _)|(E & _)]).
      * exfalso. apply (HN i Hi). rewrite <- E. apply in_app_iff. right. now left.
      * apply HU in E as [-> ->]; [|exact Hu|exact (HN _ Hi)]. apply mem_In in Em. destruct (HN g Hg Em).
    + assert (Hf : ~ In 46 f) by (rewrite <- mem_In; congruence).
      assert (G : u ++ f <> [] -> (match u, f with [], [] => Err ValueError | _, _ => Ok (dval u) end) = Ok (dval u))
        by (destruct u, f; cbn; congruence).
      split.
      * intros H. exists u, f. split; [now apply HD|]. split; [now apply HD|].
        assert (Hne : u ++ f <> []) by (intros E; apply app_eq_nil in E as [-> ->]; discriminate H).
        rewrite G in H by exact Hne. injection H as <-. split; [reflexivity|]. right. now split.
      * intros (i & g & Hi & Hg & -> & [(E & _)|(E & Hne)]).
        -- exfalso. apply (HN i Hi). rewrite <- E. apply in_app_iff. right. now left.
        -- apply HU in E as [-> ->]; [|exact Hu|exact (HN _ Hi)]. now rewrite G.
  - destruct G as [-> Hn]. split.
    + intros [= <-]. exists s, []. split; [now apply HD|]. split; [constructor|]. split; [reflexivity|]. left. now split.
    + intros (i & g & Hi & Hg & -> & [(E & _)|(E & _)]); [now subst|].
      exfalso. apply Hn. rewrite E. apply in_app_iff. right. now left.
Qed.
