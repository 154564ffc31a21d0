(** Proofs about lengths, coordinates and shapes. *)
From Coq Require Import QArith Qfield Lqa.
From Verif Require Import Py Iso Dec Shapes ShapesSpec.
Open Scope Z_scope.
Ltac Zify.zify_convert_to_euclidean_division_equations_flag ::= constr:(true).

Lemma GetValue_pixels l dim v : GetValue l dim = Ok v <-> pixels l dim v.
Proof.
  unfold GetValue, pixels. destruct (l_type l).
  - split; [intros [= <-]; reflexivity|intros ->; reflexivity].
  - destruct dim as [d|].
    + split.
      * intros [= <-]. exists d. split; [reflexivity|]. lia.
      * intros (d' & [= <-] & H). f_equal. lia.
    + split; [discriminate|]. intros (d & E & _). discriminate.
Qed.

Lemma vertices_points w h cs vs : points w h cs vs -> vertices cs w h = Ok vs.
Proof.
  induction 1 as [|cx cy x y cs ps Hx Hy _ IH]; [reflexivity|]. cbn [vertices].
  apply GetValue_pixels in Hx, Hy. rewrite Hx, Hy. cbn [bind]. now rewrite IH.
Qed.

Lemma points_length w h cs vs : points w h cs vs -> length cs = (2 * length vs)%nat.
Proof. induction 1; cbn [length] in *; lia. Qed.

Lemma points_app w h c1 v1 c2 v2 : points w h c1 v1 -> points w h c2 v2 -> points w h (c1 ++ c2) (v1 ++ v2).
Proof. induction 1; intros H2; cbn; [exact H2|]. constructor; auto. Qed.

Lemma px_points_ok w h vs : points w h (px_points vs) vs.
Proof. induction vs as [|[x y] vs IH]; cbn; constructor; try reflexivity; exact IH. Qed.

(** ** Crossings *)
Definition odd_cross (p : Z * Z) (a b : Z * Z) : bool := crosses (fst p) (snd p) a b.

Lemma crosses_spec x y a b :
  crosses x y a b = true <->
  (snd a <= y < snd b /\ orient a b (x, y) <= 0) \/ (snd b <= y < snd a /\ 0 <= orient a b (x, y)).
Proof.
  destruct a as [x0 y0], b as [x1 y1]. unfold crosses, orient. cbn [fst snd].
  destruct (y0 =? y1) eqn:E; [split; [discriminate|]; lia|].
  destruct (y0 >? y1) eqn:E1.
  - destruct ((y <? y1) || (y >=? y0)) eqn:E2; [split; [discriminate|]; lia|].
    destruct (y =? y1) eqn:E3.
    { assert (y = y1) by lia. subst y. split.
      - intros H. right. split; [lia|]. nia.
      - intros [H|[_ H]]; [lia|]. assert (0 < y0 - y1) by lia. nia. }
    destruct ((x <? x1) && (x <? x0)) eqn:E4.
    { split; [discriminate|]. intros [H|[_ H]]; [lia|]. exfalso.
      assert (0 < (x0 - x) * (y - y1)) by nia. assert (0 < (x1 - x) * (y0 - y)) by nia. nia. }
    rewrite Z.leb_le. split; [intros H; right; split; [lia|nia]|intros [H|[_ H]]; [lia|nia]].
  - destruct ((y <? y0) || (y >=? y1)) eqn:E2; [split; [discriminate|]; lia|].
    destruct (y =? y0) eqn:E3.
    { assert (y = y0) by lia. subst y. split.
      - intros H. left. split; [lia|]. nia.
      - intros [[_ H]|H]; [|lia]. assert (0 < y1 - y0) by lia. nia. }
    destruct ((x <? x0) && (x <? x1)) eqn:E4.
    { split; [discriminate|]. intros [[_ H]|H]; [|lia]. exfalso.
      assert (0 < (x1 - x) * (y - y0)) by nia. assert (0 < (x0 - x) * (y1 - y)) by nia. nia. }
    rewrite Z.leb_le. split; [intros H; left; split; [lia|nia]|intros [[_ H]|H]; [nia|lia]].
Qed.

Lemma orient_swap a b p : orient b a p = - orient a b p.
Proof. unfold orient. ring. Qed.

Lemma crosses_sym x y a b : crosses x y a b = crosses x y b a.
Proof. apply eq_true_iff_eq. rewrite !crosses_spec, (orient_swap a b). lia. Qed.

Lemma crosses_same x y a : crosses x y a a = false.
Proof. destruct a as [x0 y0]. unfold crosses. now rewrite Z.eqb_refl. Qed.

Lemma crosses_move dx dy x y a b : crosses (x + dx) (y + dy) (move dx dy a) (move dx dy b) = crosses x y a b.
Proof.
  apply eq_true_iff_eq. rewrite !crosses_spec. unfold move. cbn [fst snd].
  replace (orient (fst a + dx, snd a + dy) (fst b + dx, snd b + dy) (x + dx, y + dy)) with (orient a b (x, y))
    by (unfold orient; cbn [fst snd]; ring). lia.
Qed.

(** Parity of the crossings along a path. *)
Fixpoint par (x y : Z) (vs : list (Z * Z)) : bool :=
  match vs with
  | a :: ((b :: _) as vs') => xorb (crosses x y a b) (par x y vs')
  | _ => false
  end.

Lemma par_cons2 x y a b vs : par x y (a :: b :: vs) = xorb (crosses x y a b) (par x y (b :: vs)).
Proof. reflexivity. Qed.

Lemma nCrossings_nonneg x y vs : 0 <= nCrossings x y vs.
Proof.
  induction vs as [|a [|b vs] IH]; try (cbn; lia). cbn [nCrossings] in *. destruct (crosses x y a b); lia.
Qed.

Lemma par_crossings x y vs : negb (nCrossings x y vs mod 2 =? 0) = par x y vs.
Proof.
  induction vs as [|a vs IH]; [reflexivity|]. destruct vs as [|b vs]; [reflexivity|].
  change (par x y (a :: b :: vs)) with (xorb (crosses x y a b) (par x y (b :: vs))).
  change (nCrossings x y (a :: b :: vs)) with ((if crosses x y a b then 1 else 0) + nCrossings x y (b :: vs)).
  rewrite <- IH. generalize (nCrossings x y (b :: vs)). intros n.
  destruct (crosses x y a b); [|now rewrite xorb_false_l].
  destruct (Z.eqb_spec ((1 + n) mod 2) 0) as [E1|E1], (Z.eqb_spec (n mod 2) 0) as [E2|E2]; try reflexivity; exfalso;
    pose proof (Z.mod_pos_bound n 2); pose proof (Z.div_mod n 2); pose proof (Z.div_mod (1 + n) 2);
    pose proof (Z.mod_pos_bound (1 + n) 2); lia.
Qed.

Lemma par_app x y vs a : forall ws b, par x y (vs ++ a :: b :: ws) = xorb (par x y (vs ++ [a])) (xorb (crosses x y a b) (par x y (b :: ws))).
Proof.
  induction vs as [|c vs IH]; intros ws b.
  - symmetry. apply xorb_false_l.
  - destruct vs as [|d vs].
    + cbn [app par]. now rewrite xorb_false_r.
    + specialize (IH ws b). cbn [app par] in *. now rewrite IH, <- xorb_assoc.
Qed.

Lemma par_join x y vs a ws : par x y (vs ++ a :: ws) = xorb (par x y (vs ++ [a])) (par x y (a :: ws)).
Proof.
  destruct ws as [|b ws]; [cbn [par]; now rewrite xorb_false_r|]. rewrite par_app. reflexivity.
Qed.

Lemma par_rev x y vs : par x y (rev vs) = par x y vs.
Proof.
  induction vs as [|a vs IH]; [reflexivity|]. destruct vs as [|b vs]; [reflexivity|].
  cbn [rev] in *. rewrite <- app_assoc. cbn [app]. rewrite par_app. cbn [par]. rewrite xorb_false_r.
  change (par x y (rev vs ++ [b])) with (par x y (rev vs ++ [b])). rewrite IH. cbn [par].
  rewrite (crosses_sym x y b a), xorb_comm. reflexivity.
Qed.

(** Parity of a closed polygon. *)
Definition cyc (x y : Z) (vs : list (Z * Z)) : bool :=
  match vs with [] => false | v0 :: _ => par x y (vs ++ [v0]) end.

Lemma last_app_eq {A} (l : list A) a d : last (l ++ [a]) d = a.
Proof. induction l as [|b l IH]; [reflexivity|]. cbn. destruct (l ++ [a]) eqn:E; [destruct l; discriminate|exact IH]. Qed.

Lemma exists_last' {A} (a : A) l : exists l' b, a :: l = l' ++ [b].
Proof. destruct (exists_last (l := a :: l)) as (l' & b & E); [discriminate|]. eauto. Qed.

Lemma close_par x y vs : par x y (close_poly vs) = cyc x y vs.
Proof.
  destruct vs as [|v0 vs]; [reflexivity|]. unfold close_poly, cyc.
  destruct (pt_eqb v0 (last (v0 :: vs) v0)) eqn:E; [|reflexivity].
  destruct (exists_last' v0 vs) as (l & b & El). rewrite El in *. rewrite last_app_eq in E.
  assert (v0 = b) as <-.
  { unfold pt_eqb in E. destruct v0, b. cbn in E. f_equal; lia. }
  rewrite <- app_assoc. cbn [app]. rewrite par_app, crosses_same. cbn [par]. now rewrite !xorb_false_r.
Qed.

Lemma TestPoly_cyc w h cs vs x y : points w h cs vs -> (3 <= length vs)%nat ->
  TestPoly cs x y w h = Ok (cyc x y vs).
Proof.
  intros HP HL. pose proof (points_length _ _ _ _ HP) as E. unfold TestPoly.
  replace (length cs <? 6)%nat with false by (symmetry; apply Nat.ltb_ge; lia).
  replace (Nat.odd (length cs)) with false.
  2:{ symmetry. rewrite E. rewrite Nat.odd_mul. reflexivity. }
  rewrite (vertices_points _ _ _ _ HP). cbn [bind]. now rewrite par_crossings, close_par.
Qed.

Lemma TestPoly_bad w h cs x y : (length cs < 6)%nat \/ Nat.odd (length cs) = true -> TestPoly cs x y w h = Err ValueError.
Proof.
  intros H. unfold TestPoly. destruct (length cs <? 6)%nat eqn:E; [reflexivity|].
  destruct H as [H|H]; [apply Nat.ltb_ge in E; lia|]. now rewrite H.
Qed.

Lemma cyc_rotate x y v vs : cyc x y (vs ++ [v]) = cyc x y (v :: vs).
Proof.
  destruct vs as [|a vs]; [reflexivity|]. unfold cyc. cbn [app].
  change ((v :: a :: vs) ++ [v]) with ((v :: a :: vs) ++ [v]).
  replace (a :: (vs ++ [v]) ++ [a]) with ((a :: vs) ++ v :: a :: []) by (cbn; now rewrite <- app_assoc).
  rewrite par_app. cbn [par]. rewrite xorb_false_r, xorb_comm. reflexivity.
Qed.

Lemma cyc_rotate_app x y us vs : cyc x y (us ++ vs) = cyc x y (vs ++ us).
Proof.
  revert vs. induction us as [|a us IH]; intros vs; [now rewrite app_nil_r|].
  cbn [app]. rewrite <- cyc_rotate, <- app_assoc, IH, <- app_assoc. reflexivity.
Qed.

Lemma cyc_rev x y vs : cyc x y (rev vs) = cyc x y vs.
Proof.
  destruct vs as [|v vs]; [reflexivity|]. cbn [rev]. rewrite cyc_rotate.
  unfold cyc. rewrite <- (par_rev x y ((v :: vs) ++ [v])), rev_app_distr. cbn [rev app]. reflexivity.
Qed.

Lemma cyc_close x y v vs : cyc x y ((v :: vs) ++ [v]) = cyc x y (v :: vs).
Proof.
  unfold cyc. cbn [app]. replace (v :: (vs ++ [v]) ++ [v]) with ((v :: vs) ++ v :: v :: []) by (cbn; now rewrite <- app_assoc).
  rewrite par_app, crosses_same. cbn [par app]. now rewrite !xorb_false_r.
Qed.

Lemma cyc_move dx dy x y vs : cyc (x + dx) (y + dy) (map (move dx dy) vs) = cyc x y vs.
Proof.
  destruct vs as [|v vs]; [reflexivity|]. unfold cyc. cbn [map].
  change (move dx dy v :: map (move dx dy) vs) with (map (move dx dy) (v :: vs)).
  change [move dx dy v] with (map (move dx dy) [v]). rewrite <- map_app. generalize ((v :: vs) ++ [v]).
  induction l as [|a [|b l] IH]; try reflexivity. cbn [map par] in *. now rewrite crosses_move, IH.
Qed.

(** Cutting a polygon along the diagonal a b. *)
Lemma cyc_split x y a us b ws : cyc x y (a :: us ++ b :: ws) = xorb (cyc x y (a :: us ++ [b])) (cyc x y (a :: b :: ws)).
Proof.
  unfold cyc.
  replace ((a :: us ++ b :: ws) ++ [a]) with ((a :: us) ++ b :: (ws ++ [a])) by (cbn; now rewrite <- app_assoc).
  replace ((a :: us ++ [b]) ++ [a]) with ((a :: us) ++ b :: a :: []) by (cbn; now rewrite <- app_assoc).
  rewrite par_join, par_app. cbn [app par]. rewrite (crosses_sym x y b a), xorb_false_r.
  rewrite xorb_assoc. f_equal. rewrite <- xorb_assoc, xorb_nilpotent. now rewrite xorb_false_l.
Qed.

(** ** Bounding box *)
Lemma par_false x y vs : (forall a b, In a vs -> In b vs -> crosses x y a b = false) -> par x y vs = false.
Proof.
  induction vs as [|a [|b vs] IH]; intros H; try reflexivity. rewrite par_cons2.
  rewrite H by (cbn; auto). rewrite xorb_false_l. apply IH. intros c d Hc Hd. apply H; now right.
Qed.

Lemma cyc_false x y vs : (forall a b, In a vs -> In b vs -> crosses x y a b = false) -> cyc x y vs = false.
Proof.
  intros H. destruct vs as [|v vs]; [reflexivity|]. apply par_false. intros a b Ha Hb.
  apply H; [apply in_app_iff in Ha as [Ha|[<-|[]]]|apply in_app_iff in Hb as [Hb|[<-|[]]]]; auto; now left.
Qed.

(** To the right of all vertices the crossings are those of the horizontal line. *)
Definition below (y : Z) (a : Z * Z) : bool := y <? snd a.
Lemma crosses_right x y a b : fst a <= x -> fst b <= x -> crosses x y a b = xorb (below y a) (below y b).
Proof.
  intros Ha Hb. apply eq_true_iff_eq. rewrite crosses_spec. destruct a as [x0 y0], b as [x1 y1].
  unfold below, orient. cbn [fst snd] in *. split.
  - intros [[H _]|[H _]]; destruct (y <? y0) eqn:E1, (y <? y1) eqn:E2; try reflexivity; lia.
  - destruct (y <? y0) eqn:E1, (y <? y1) eqn:E2; cbn [xorb]; try discriminate; intros _.
    + right. split; [lia|]. nia.
    + left. split; [lia|]. nia.
Qed.

Lemma par_right x y a vs : fst a <= x -> (forall b, In b vs -> fst b <= x) ->
  par x y (a :: vs) = xorb (below y a) (below y (last vs a)).
Proof.
  revert a. induction vs as [|b vs IH]; intros a Ha H.
  - cbn. now rewrite xorb_nilpotent.
  - rewrite par_cons2. rewrite crosses_right by (auto; apply H; now left).
    rewrite IH by (try (apply H; now left); intros c Hc; apply H; now right).
    rewrite xorb_assoc, <- (xorb_assoc (below y b)), xorb_nilpotent, xorb_false_l.
    destruct vs as [|c vs]; [reflexivity|].
    f_equal. f_equal. clear. revert c. induction vs as [|d vs IH]; intros c; [reflexivity|]. exact (IH d).
Qed.

Lemma cyc_right x y vs : (forall b, In b vs -> fst b <= x) -> cyc x y vs = false.
Proof.
  intros H. destruct vs as [|v vs]; [reflexivity|]. unfold cyc. cbn [app]. rewrite par_right.
  - rewrite last_app_eq. apply xorb_nilpotent.
  - apply H. now left.
  - intros b Hb. apply H. apply in_app_iff in Hb as [Hb|[<-|[]]]; [now right|now left].
Qed.

Lemma cyc_left x y vs : (forall b, In b vs -> x < fst b) -> cyc x y vs = false.
Proof.
  intros H. apply cyc_false. intros a b Ha Hb. apply H in Ha, Hb. apply not_true_iff_false.
  rewrite crosses_spec. destruct a as [x0 y0], b as [x1 y1]. unfold orient. cbn [fst snd] in *.
  intros [[H1 H2]|[H1 H2]].
  - assert (0 < (x0 - x) * (y1 - y)) by nia. assert (0 <= (x1 - x) * (y - y0)) by nia. nia.
  - assert (0 <= (x0 - x) * (y - y1)) by nia. assert (0 < (x1 - x) * (y0 - y)) by nia. nia.
Qed.

Lemma cyc_above x y vs : (forall b, In b vs -> y < snd b) -> cyc x y vs = false.
Proof.
  intros H. apply cyc_false. intros a b Ha Hb. apply H in Ha, Hb. apply not_true_iff_false.
  rewrite crosses_spec. lia.
Qed.
Lemma cyc_below x y vs : (forall b, In b vs -> snd b <= y) -> cyc x y vs = false.
Proof.
  intros H. apply cyc_false. intros a b Ha Hb. apply H in Ha, Hb. apply not_true_iff_false.
  rewrite crosses_spec. lia.
Qed.

(** ** Triangles *)
Lemma tri_sum a b c p : orient b c p * (snd a - snd p) + orient c a p * (snd b - snd p) + orient a b p * (snd c - snd p) = 0.
Proof. unfold orient. ring. Qed.

Lemma cyc_triangle x y a b c : off_lines a b c (x, y) -> cyc x y [a; b; c] = in_triangle a b c (x, y).
Proof.
  intros (H1 & H2 & H3). cbn [cyc par app]. rewrite xorb_false_r.
  pose proof (tri_sum a b c (x, y)) as HS. cbn [fst snd] in HS.
  unfold in_triangle. set (oab := orient a b (x, y)) in *. set (obc := orient b c (x, y)) in *.
  set (oca := orient c a (x, y)) in *.
  assert (Cab : crosses x y a b = ((snd a <=? y) && (y <? snd b) && (oab <? 0)) || ((snd b <=? y) && (y <? snd a) && (0 <? oab))).
  { apply eq_true_iff_eq. rewrite crosses_spec. fold oab. lia. }
  assert (Cbc : crosses x y b c = ((snd b <=? y) && (y <? snd c) && (obc <? 0)) || ((snd c <=? y) && (y <? snd b) && (0 <? obc))).
  { apply eq_true_iff_eq. rewrite crosses_spec. fold obc. lia. }
  assert (Cca : crosses x y c a = ((snd c <=? y) && (y <? snd a) && (oca <? 0)) || ((snd a <=? y) && (y <? snd c) && (0 <? oca))).
  { apply eq_true_iff_eq. rewrite crosses_spec. fold oca. lia. }
  rewrite Cab, Cbc, Cca. clear Cab Cbc Cca.
  set (ya := snd a - y) in *. set (yb := snd b - y) in *. set (yc := snd c - y) in *.
  replace (snd a <=? y) with (ya <=? 0) by (unfold ya; lia).
  replace (snd b <=? y) with (yb <=? 0) by (unfold yb; lia).
  replace (snd c <=? y) with (yc <=? 0) by (unfold yc; lia).
  replace (y <? snd a) with (0 <? ya) by (unfold ya; lia).
  replace (y <? snd b) with (0 <? yb) by (unfold yb; lia).
  replace (y <? snd c) with (0 <? yc) by (unfold yc; lia).
  assert (Hz : ~ (ya = 0 /\ yb = 0 /\ yc = 0)).
  { intros (A & B & C). unfold oab, orient in H1. cbn [fst snd] in H1.
    apply H1. unfold ya, yb in A, B. replace (snd b - snd a) with 0 by lia. replace (y - snd a) with 0 by lia. ring. }
  clearbody ya yb yc oab obc oca.
  destruct (Z.ltb_spec 0 oab), (Z.ltb_spec oab 0), (Z.ltb_spec 0 obc), (Z.ltb_spec obc 0),
    (Z.ltb_spec 0 oca), (Z.ltb_spec oca 0); try lia;
  destruct (Z.leb_spec ya 0), (Z.ltb_spec 0 ya), (Z.leb_spec yb 0), (Z.ltb_spec 0 yb),
    (Z.leb_spec yc 0), (Z.ltb_spec 0 yc); try lia; try reflexivity; exfalso; clear H1 H2 H3; nia.
Qed.

Lemma cyc_fan x y v0 vs : Forall (tri_off (x, y)) (fan v0 vs) ->
  cyc x y (v0 :: vs) = Nat.odd (length (filter (tri_in (x, y)) (fan v0 vs))).
Proof.
  induction vs as [|a vs IH]; intros HF.
  - cbn. now rewrite xorb_false_r, crosses_same.
  - destruct vs as [|b vs].
    + cbn [fan filter length cyc par app]. rewrite (crosses_sym x y a v0), xorb_false_r. apply xorb_nilpotent.
    + cbn [fan] in HF. apply Forall_cons_iff in HF as [H1 HF]. specialize (IH HF).
      change (v0 :: a :: b :: vs) with (v0 :: [a] ++ b :: vs). rewrite cyc_split, IH. cbn [app].
      rewrite cyc_triangle by exact H1. change (fan v0 (a :: b :: vs)) with ((v0, a, b) :: fan v0 (b :: vs)).
      cbn [filter tri_in]. destruct (in_triangle v0 a b (x, y)); [|now rewrite xorb_false_l].
      cbn [length]. rewrite Nat.odd_succ, <- Nat.negb_odd. now destruct (Nat.odd _).
Qed.

(** ** Rectangles, discs, ellipses *)
Lemma TestRect_spec w h c0 c1 c2 c3 cs x0 y0 x1 y1 x y :
  pixels c0 w x0 -> pixels c1 h y0 -> pixels c2 w x1 -> pixels c3 h y1 ->
  exists b, TestRect (c0 :: c1 :: c2 :: c3 :: cs) x y w h = Ok b /\ (b = true <-> in_rectangle (x0, y0) (x1, y1) (x, y)).
Proof.
  intros H0 H1 H2 H3. apply GetValue_pixels in H0, H1, H2, H3. unfold TestRect.
  rewrite H0, H1, H2, H3. cbn [bind]. unfold in_rectangle. cbn [fst snd].
  destruct (x0 >? x1) eqn:E1, (y0 >? y1) eqn:E2;
    (destruct ((x <? _) || (y <? _)) eqn:E3; [|destruct ((x >=? _) || (y >=? _)) eqn:E4]);
    eexists; (split; [reflexivity|]); lia.
Qed.

Lemma rect_poly x0 y0 x1 y1 x y : cyc x y [(x0, y0); (x1, y0); (x1, y1); (x0, y1)] = true <->
  in_rectangle (x0, y0) (x1, y1) (x, y).
Proof.
  cbn [cyc par app]. rewrite xorb_false_r.
  assert (C1 : crosses x y (x0, y0) (x1, y0) = false) by (unfold crosses; now rewrite Z.eqb_refl).
  assert (C2 : crosses x y (x1, y1) (x0, y1) = false) by (unfold crosses; now rewrite Z.eqb_refl).
  rewrite C1, C2, !xorb_false_l.
  assert (C3 : crosses x y (x1, y0) (x1, y1) = (((y0 <=? y) && (y <? y1)) || ((y1 <=? y) && (y <? y0))) && (x1 <=? x)).
  { apply eq_true_iff_eq. rewrite crosses_spec. unfold orient. cbn [fst snd].
    replace ((x1 - x1) * (y - y0) - (y1 - y0) * (x - x1)) with ((y0 - y1) * (x - x1)) by ring.
    split; [intros [[A B]|[A B]]|]; [nia|nia|]. intros H.
    assert ((y0 <= y < y1 \/ y1 <= y < y0) /\ x1 <= x) as [[A|A] B] by lia; [left|right]; (split; [lia|nia]). }
  assert (C4 : crosses x y (x0, y1) (x0, y0) = (((y0 <=? y) && (y <? y1)) || ((y1 <=? y) && (y <? y0))) && (x0 <=? x)).
  { apply eq_true_iff_eq. rewrite crosses_spec. unfold orient. cbn [fst snd].
    replace ((x0 - x0) * (y - y1) - (y0 - y1) * (x - x0)) with ((y1 - y0) * (x - x0)) by ring.
    split; [intros [[A B]|[A B]]|]; [nia|nia|]. intros H.
    assert ((y0 <= y < y1 \/ y1 <= y < y0) /\ x0 <= x) as [[A|A] B] by lia; [right|left]; (split; [lia|nia]). }
  rewrite C3, C4. unfold in_rectangle. cbn [fst snd].
  destruct (((y0 <=? y) && (y <? y1)) || ((y1 <=? y) && (y <? y0))) eqn:E;
    destruct (x1 <=? x) eqn:E1, (x0 <=? x) eqn:E2; cbn [andb xorb]; (split; [intros HH; try discriminate HH; lia|lia]).
Qed.

Lemma TestCircle_spec w h c0 c1 c2 cs x0 y0 r x y :
  pixels c0 w x0 -> pixels c1 h y0 ->
  pixels c2 (match w, h with Some a, Some b => Some (Z.min a b) | _, _ => None end) r ->
  exists b, TestCircle (c0 :: c1 :: c2 :: cs) x y w h = Ok b /\ (b = true <-> in_disc (x0, y0) r (x, y)).
Proof.
  intros H0 H1 H2. apply GetValue_pixels in H0, H1, H2. unfold TestCircle. rewrite H0. cbn [bind]. rewrite H1. cbn [bind].
  replace (GetValue c2 (if opt_lt w h then w else h)) with (@Ok Z r).
  - cbn [bind]. eexists. split; [reflexivity|]. unfold in_disc. cbn [fst snd]. rewrite Z.leb_le, !Z.pow_2_r. lia.
  - rewrite <- H2. unfold GetValue. destruct (l_type c2); [reflexivity|].
    destruct w as [a|], h as [b|]; cbn [opt_lt]; try reflexivity.
    f_equal. f_equal. destruct (a <? b) eqn:E; f_equal; f_equal; f_equal; lia.
Qed.
