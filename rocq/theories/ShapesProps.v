(** Properties C59 and C99-C101. *)
From Coq Require Import QArith.
From Verif Require Import Py Iso Dec Shapes ShapesSpec ShapesProofs ShapesProofs2.
From Verif Require XmlCharsSpec.
Open Scope Z_scope.

(** ** C59: which points are in a shape *)
Theorem C59_rect w h c0 c1 c2 c3 cs x0 y0 x1 y1 x y :
  pixels c0 w x0 -> pixels c1 h y0 -> pixels c2 w x1 -> pixels c3 h y1 ->
  exists b, TestPoint rect (c0 :: c1 :: c2 :: c3 :: cs) x y w h = Ok b /\
    (b = true <-> in_rectangle (x0, y0) (x1, y1) (x, y)).
Proof. apply TestRect_spec. Qed.

(** A percentage radius is taken of the smaller of width and height. *)
Theorem C59_circle w h c0 c1 c2 cs x0 y0 r x y :
  pixels c0 w x0 -> pixels c1 h y0 ->
  pixels c2 (match w, h with Some a, Some b => Some (Z.min a b) | _, _ => None end) r ->
  exists b, TestPoint circle (c0 :: c1 :: c2 :: cs) x y w h = Ok b /\ (b = true <-> in_disc (x0, y0) r (x, y)).
Proof. apply TestCircle_spec. Qed.

Theorem C59_ellipse_partial w h c0 c1 c2 c3 cs x0 y0 rx ry x y :
  pixels c0 w x0 -> pixels c1 h y0 -> pixels c2 w rx -> pixels c3 h ry -> 0 < rx -> 0 < ry ->
  exists b, TestPoint ellipse (c0 :: c1 :: c2 :: c3 :: cs) x y w h = Ok b /\
    (b = true <-> in_ellipse (x0, y0) rx ry (x, y)).
Proof. apply TestEllipse_spec. Qed.

(** An ellipse of no width accepts the points of the whole vertical line, beyond its height. *)
Theorem C59_ellipse_refuted x0 y0 ry y :
  TestPoint ellipse [px x0; px y0; px 0; px ry] x0 y None None = Ok true.
Proof.
  cbn [TestPoint TestEllipse GetValue bind px l_type l_value]. f_equal. apply Z.leb_le. lia.
Qed.

(** Polygons: the even-odd rule, stated by triangles.  A polygon is cut by the diagonals from its
    first vertex; a point on none of the lines involved is in the polygon if and only if it is
    in an odd number of the triangles. *)
Theorem C59_poly_even_odd w h cs v0 vs x y :
  points w h cs (v0 :: vs) -> (3 <= length (v0 :: vs))%nat -> Forall (tri_off (x, y)) (fan v0 vs) ->
  TestPoint poly cs x y w h = Ok (Nat.odd (length (filter (tri_in (x, y)) (fan v0 vs)))).
Proof.
  intros HP HL HF. unfold TestPoint. rewrite (TestPoly_cyc _ _ _ _ _ _ HP HL). f_equal. now apply cyc_fan.
Qed.

(** For all points: the answer does not depend on the first vertex, the sense, or whether the
    polygon is closed explicitly. *)
Theorem C59_poly_same_polygon w h cs cs' us vs x y :
  points w h cs (us ++ vs) -> (3 <= length (us ++ vs))%nat ->
  (points w h cs' (vs ++ us) \/ points w h cs' (rev (us ++ vs)) \/
   (exists v0 r, us ++ vs = v0 :: r /\ points w h cs' ((us ++ vs) ++ [v0]))) ->
  TestPoint poly cs' x y w h = TestPoint poly cs x y w h.
Proof.
  intros HP HL H. unfold TestPoint. rewrite (TestPoly_cyc _ _ _ _ _ _ HP HL).
  destruct H as [H|[H|(v0 & r & E & H)]].
  - rewrite (TestPoly_cyc _ _ _ _ _ _ H) by (rewrite app_length in *; lia). f_equal. apply cyc_rotate_app.
  - rewrite (TestPoly_cyc _ _ _ _ _ _ H) by (rewrite rev_length; exact HL). f_equal. apply cyc_rev.
  - rewrite (TestPoly_cyc _ _ _ _ _ _ H) by (rewrite (app_length (us ++ vs)); lia). f_equal.
    rewrite E. apply cyc_close.
Qed.

(** For all points: a polygon cut in two along a diagonal is accepted by exactly one of the parts. *)
Theorem C59_poly_cut w h a us b ws c1 c2 c3 x y :
  points w h c1 (a :: us ++ b :: ws) -> points w h c2 (a :: us ++ [b]) -> points w h c3 (a :: b :: ws) ->
  us <> [] -> ws <> [] ->
  exists b2 b3, TestPoint poly c2 x y w h = Ok b2 /\ TestPoint poly c3 x y w h = Ok b3 /\
    TestPoint poly c1 x y w h = Ok (xorb b2 b3).
Proof.
  intros H1 H2 H3 Hu Hw. exists (cyc x y (a :: us ++ [b])), (cyc x y (a :: b :: ws)).
  assert (Lu : (1 <= length us)%nat) by (destruct us; [congruence|cbn; lia]).
  assert (Lw : (1 <= length ws)%nat) by (destruct ws; [congruence|cbn; lia]).
  unfold TestPoint. repeat split.
  - apply (TestPoly_cyc _ _ _ _ _ _ H2). cbn [length]. rewrite app_length. cbn [length]. lia.
  - apply (TestPoly_cyc _ _ _ _ _ _ H3). cbn [length]. lia.
  - rewrite (TestPoly_cyc _ _ _ _ _ _ H1), cyc_split; [reflexivity|]. cbn [length]. rewrite app_length. cbn [length]. lia.
Qed.

(** Nothing outside the bounding box is accepted (nor on its right and lower edges). *)
Theorem C59_poly_in_box w h cs vs x y : points w h cs vs ->
  TestPoint poly cs x y w h = Ok true ->
  (exists v, In v vs /\ fst v <= x) /\ (exists v, In v vs /\ x < fst v) /\
  (exists v, In v vs /\ snd v <= y) /\ (exists v, In v vs /\ y < snd v).
Proof.
  intros HP H. assert (HL : (3 <= length vs)%nat).
  { pose proof (points_length _ _ _ _ HP) as E.
    destruct (Nat.lt_ge_cases (length cs) 6) as [L|L]; [|lia].
    unfold TestPoint in H. rewrite TestPoly_bad in H by now left. discriminate. }
  unfold TestPoint in H. rewrite (TestPoly_cyc _ _ _ _ _ _ HP HL) in H. injection H as H.
  assert (D : forall P : Z * Z -> bool, (exists v, In v vs /\ P v = true) \/ (forall v, In v vs -> P v = false)).
  { intros P. destruct (existsb P vs) eqn:E.
    - apply existsb_exists in E. now left.
    - right. intros v Hv. apply not_true_iff_false. intros G.
      assert (existsb P vs = true) by (apply existsb_exists; eauto). congruence. }
  split; [|split; [|split]].
  - destruct (D (fun v => fst v <=? x)) as [(v & Hv & E)|E]; [exists v; split; [exact Hv|lia]|].
    rewrite cyc_left in H; [discriminate|]. intros b Hb. specialize (E b Hb). cbn in E. lia.
  - destruct (D (fun v => x <? fst v)) as [(v & Hv & E)|E]; [exists v; split; [exact Hv|lia]|].
    rewrite cyc_right in H; [discriminate|]. intros b Hb. specialize (E b Hb). cbn in E. lia.
  - destruct (D (fun v => snd v <=? y)) as [(v & Hv & E)|E]; [exists v; split; [exact Hv|lia]|].
    rewrite cyc_above in H; [discriminate|]. intros b Hb. specialize (E b Hb). cbn in E. lia.
  - destruct (D (fun v => y <? snd v)) as [(v & Hv & E)|E]; [exists v; split; [exact Hv|lia]|].
    rewrite cyc_below in H; [discriminate|]. intros b Hb. specialize (E b Hb). cbn in E. lia.
Qed.

(** A rectangle written as a polygon accepts exactly the points of the rectangle. *)
Theorem C59_poly_rect x0 y0 x1 y1 x y w h :
  TestPoint poly (px_points [(x0, y0); (x1, y0); (x1, y1); (x0, y1)]) x y w h =
  TestPoint rect (px_points [(x0, y0); (x1, y1)]) x y w h.
Proof.
  unfold TestPoint. rewrite (TestPoly_cyc w h _ _ x y (px_points_ok w h _)) by (cbn; lia).
  destruct (TestRect_spec w h (px x0) (px y0) (px x1) (px y1) [] x0 y0 x1 y1 x y) as (b & E & Hb);
    try reflexivity.
  change (px_points [(x0, y0); (x1, y1)]) with [px x0; px y0; px x1; px y1]. rewrite E. f_equal.
  apply eq_true_iff_eq. rewrite Hb. apply rect_poly.
Qed.

(** Moving a polygon and the point together changes nothing. *)
Theorem C59_poly_moves vs x y dx dy w h : (3 <= length vs)%nat ->
  TestPoint poly (px_points (map (move dx dy) vs)) (x + dx) (y + dy) w h =
  TestPoint poly (px_points vs) x y w h.
Proof.
  intros HL. unfold TestPoint. rewrite (TestPoly_cyc w h _ _ x y (px_points_ok w h _)) by exact HL.
  rewrite (TestPoly_cyc w h _ _ _ _ (px_points_ok w h _)) by (rewrite map_length; exact HL).
  f_equal. apply cyc_move.
Qed.

Theorem C59_poly_errors cs x y w h : (length cs < 6)%nat \/ Nat.odd (length cs) = true ->
  TestPoint poly cs x y w h = Err ValueError.
Proof. apply TestPoly_bad. Qed.

Example C59_ex :
  points (Some 200) (Some 100) [px 0; px 0; mkLen Percentage 50; px 0; px 50; px 80] [(0, 0); (100, 0); (50, 80)] /\
  Forall (tri_off (50, 10)) (fan (0, 0) [(100, 0); (50, 80)]) /\
  TestPoint poly [px 0; px 0; mkLen Percentage 50; px 0; px 50; px 80] 50 10 (Some 200) (Some 100) = Ok true /\
  TestPoint rect [px 10; px 10; px 0; px 0] 0 9 None None = Ok true /\
  TestPoint circle [px 0; px 0; px 5] 3 4 None None = Ok true /\
  TestPoint ellipse [px 0; px 0; px 5; px 2] 3 2 None None = Ok false.
Proof.
  split; [|split; [|repeat split]].
  - repeat constructor. exists 200. split; [reflexivity|]. cbn. lia.
  - constructor; [|constructor]. unfold tri_off, off_lines, orient. cbn. lia.
Qed.

(** ** C99: text forms *)
Theorem C99_length l : 0 <= l_value l -> LengthType (length_str l) None = Ok l.
Proof. apply LengthType_str. Qed.
(** Any other text: the number is that of the digits at the start, and a percentage if a
    percent sign follows anywhere; with no digits it is refused. *)
Lemma length_rest rest v : match rest with [] => True | c :: _ => ~ is_dec c end -> length_loop rest None v =
  (if mem 37 rest then Some Percentage else match rest with [] => None | _ => Some Pixel end, rev v).
Proof.
  assert (R : forall r, length_loop r (Some Pixel) v = (Some (if mem 37 r then Percentage else Pixel), rev v)).
  { induction r as [|c r IH]; [reflexivity|]. cbn [length_loop mem existsb]. rewrite (Z.eqb_sym 37 c). destruct (c =? 37); [reflexivity|exact IH]. }
  destruct rest as [|c r]; [reflexivity|]. intros N. cbn [length_loop mem existsb].
  replace (isdigit c) with false by (unfold is_dec in N; unfold isdigit; lia). rewrite (Z.eqb_sym 37 c).
  destruct (c =? 37); [reflexivity|]. rewrite R. cbn [orb]. fold (mem 37 r). now destruct (mem 37 r).
Qed.
Theorem C99_length_any s ds rest : strip s = ds ++ rest -> Forall is_dec ds -> match rest with [] => True | c :: _ => ~ is_dec c end ->
  (ds = [] -> LengthType s None = Err XHTMLValidityError) /\
  (ds <> [] -> In 37 rest -> LengthType s None = Ok (mkLen Percentage (dval ds))) /\
  (ds <> [] -> ~ In 37 rest -> LengthType s None = Ok (mkLen Pixel (dval ds))).
Proof.
  intros E D N. unfold LengthType. rewrite E, length_loop_digits, length_rest, app_nil_r, rev_involutive by assumption.
  rewrite <- !mem_In. destruct ds as [|d ds].
  - repeat split; congruence.
  - destruct (mem 37 rest); repeat split; try congruence. now destruct rest.
Qed.
Example C99_length_any_ex : LengthType (lit " 12 % of it") None = Ok (mkLen Percentage 12) /\ LengthType (lit "12px") None = Ok (mkLen Pixel 12).
Proof. split; reflexivity. Qed.

Theorem C99_coords_partial cs : (2 <= length cs)%nat -> Forall (fun l => 0 <= l_value l) cs ->
  Coords (coords_str cs) = Ok cs.
Proof. apply Coords_str. Qed.

(** A single coordinate is lost. *)
Theorem C99_coords_refuted n : 0 <= n -> Coords (coords_str [px n]) = Ok [].
Proof.
  intros H. unfold Coords, coords_str. cbn [map join_commas].
  replace (mem 44 (length_str (px n))) with false; [reflexivity|]. symmetry. apply not_true_iff_false.
  rewrite mem_In. intros Hi. pose proof (length_str_chars (px n) H) as G. rewrite Forall_forall in G.
  apply G in Hi. lia.
Qed.

Example C99_ex : Coords (lit "10, 50, 60%,75%") = Ok [px 10; px 50; mkLen Percentage 60; mkLen Percentage 75] /\
  coords_str [px 10; mkLen Percentage 60] = lit "10,60%" /\
  LengthType (lit "-5") None = Err XHTMLValidityError.
Proof. repeat split; vm_compute; reflexivity. Qed.

(** ** C100: bounds and offsets *)
Theorem C100_bounds_partial fuel s cs x y : s <> poly ->
  TestPoint s cs x y (Some 1024) (Some 768) = Ok true ->
  (s = ellipse -> forall rx ry, value_at cs 2 1024 = Ok rx -> value_at cs 3 768 = Ok ry -> 0 < rx /\ 0 < ry) ->
  (s = circle -> forall r, value_at cs 2 768 = Ok r -> 0 <= r) ->
  (s = rect -> forall x0 y0 x1 y1, value_at cs 0 1024 = Ok x0 -> value_at cs 1 768 = Ok y0 ->
     value_at cs 2 1024 = Ok x1 -> value_at cs 3 768 = Ok y1 -> x0 <= x1 /\ y0 <= y1) ->
  exists b, CalculateShapeBounds fuel s cs = Ok b /\ in_box b x y.
Proof.
  intros Hs H He Hc Hr. destruct s; try congruence; cbn [TestPoint CalculateShapeBounds] in *; unfold value_at, index in *.
  - destruct cs as [|c0 [|c1 [|c2 cs]]]; try discriminate. cbn [TestCircle] in H. cbn [nth_error bind].
    change (if opt_lt (Some 1024) (Some 768) then Some 1024 else Some 768) with (Some 768) in H.
    destruct (GetValue c0 (Some 1024)) as [vx|]; [|discriminate]. cbn [bind] in *.
    destruct (GetValue c1 (Some 768)) as [vy|]; [|discriminate]. cbn [bind] in *.
    destruct (GetValue c2 (Some 768)) as [r|] eqn:E; [|discriminate]. cbn [bind] in *.
    injection H as H. apply Z.leb_le in H. specialize (Hc eq_refl). cbn [nth_error bind] in Hc.
    specialize (Hc r E). eexists. split; [reflexivity|]. cbn [in_box].
    set (dx := x - vx) in *. set (dy := y - vy) in *. assert (dx * dx <= r * r) by nia. assert (dy * dy <= r * r) by nia.
    assert (- r <= dx <= r) by nia. assert (- r <= dy <= r) by nia. lia.
  - injection H as H. eexists. split; [reflexivity|]. cbn [in_box]. lia.
  - destruct cs as [|c0 [|c1 [|c2 [|c3 cs]]]]; try discriminate. cbn [TestEllipse] in H. cbn [nth_error bind].
    destruct (GetValue c0 (Some 1024)) as [vx|]; [|discriminate]. cbn [bind] in *.
    destruct (GetValue c1 (Some 768)) as [vy|]; [|discriminate]. cbn [bind] in *.
    destruct (GetValue c2 (Some 1024)) as [rx|] eqn:E2; [|discriminate]. cbn [bind] in *.
    destruct (GetValue c3 (Some 768)) as [ry|] eqn:E3; [|discriminate]. cbn [bind] in *.
    injection H as H. apply Z.leb_le in H. specialize (He eq_refl rx ry). cbn [nth_error bind] in He.
    specialize (He E2 E3). destruct He as [Hx Hy]. eexists. split; [reflexivity|]. cbn [in_box].
    set (dx := x - vx) in *. set (dy := y - vy) in *.
    assert (Hdx : dx * dx <= rx * rx).
    { assert (0 <= dy * dy * rx * rx) by nia. assert (0 < ry * ry) by nia.
      apply Z.mul_le_mono_pos_r with (p := ry * ry); nia. }
    assert (Hdy : dy * dy <= ry * ry).
    { assert (0 <= dx * dx * ry * ry) by nia. assert (0 < rx * rx) by nia.
      apply Z.mul_le_mono_pos_r with (p := rx * rx); nia. }
    assert (- rx <= dx <= rx) by nia. assert (- ry <= dy <= ry) by nia. lia.
  - destruct cs as [|c0 [|c1 [|c2 [|c3 cs]]]]; try discriminate. cbn [TestRect] in H. cbn [nth_error bind].
    specialize (Hr eq_refl). cbn [nth_error bind] in Hr.
    destruct (GetValue c0 (Some 1024)) as [x0|] eqn:E0; [|discriminate]. cbn [bind] in *.
    destruct (GetValue c1 (Some 768)) as [y0|] eqn:E1; [|discriminate]. cbn [bind] in *.
    destruct (GetValue c2 (Some 1024)) as [x1|] eqn:E2; [|discriminate]. cbn [bind] in *.
    destruct (GetValue c3 (Some 768)) as [y1|] eqn:E3; [|discriminate]. cbn [bind] in *.
    specialize (Hr x0 y0 x1 y1 eq_refl eq_refl eq_refl eq_refl).
    eexists. split; [reflexivity|]. cbn [in_box].
    replace (x0 >? x1) with false in H by lia. replace (y0 >? y1) with false in H by lia.
    destruct ((x <? x0) || (y <? y0)) eqn:F1; [discriminate|].
    destruct ((x >=? x1) || (y >=? y1)) eqn:F2; [discriminate|]. lia.
Qed.

(** The bounds of a polygon are never computed: the loop does not advance. *)
Theorem C100_bounds_refuted fuel cs : (4 <= length cs)%nat -> Forall (fun l => l_type l = Pixel) cs ->
  CalculateShapeBounds fuel poly cs = Err OutOfFuel.
Proof.
  intros HL HF. cbn [CalculateShapeBounds]. destruct cs as [|c0 [|c1 cs]]; cbn [length] in HL; try lia.
  pose proof HF as HF'. apply Forall_cons_iff in HF as [E0 HF]. apply Forall_cons_iff in HF as [E1 HF].
  unfold value_at at 1 2, index. cbn [nth_error bind]. unfold GetValue. rewrite E0, E1. cbn [bind].
  apply bounds_poly_loops; [cbn; lia|exact HF'].
Qed.

(** A rectangle given by its bottom right corner first has bounds that do not contain its points. *)
Theorem C100_bounds_rect_refuted : exists cs x y b,
  TestPoint rect cs x y (Some 1024) (Some 768) = Ok true /\
  (forall fuel, CalculateShapeBounds fuel rect cs = Ok b) /\ ~ in_box b x y.
Proof.
  exists [px 10; px 10; px 0; px 0], 5, 5, (10, 10, 0, 0). split; [reflexivity|]. split; [reflexivity|]. cbn. lia.
Qed.

(** Offsets move circles, ellipses and rectangles. *)
Theorem C100_offset_partial fuel s c0 c1 c2 c3 cs xo yo :
  s = circle \/ s = ellipse \/ s = rect ->
  l_type c0 = Pixel -> l_type c1 = Pixel -> (s = rect -> l_type c2 = Pixel /\ l_type c3 = Pixel) ->
  exists cs', OffsetShape fuel s (c0 :: c1 :: c2 :: c3 :: cs) xo yo = Ok cs' /\
    forall x y w h, TestPoint s cs' x y w h = TestPoint s (c0 :: c1 :: c2 :: c3 :: cs) (x + xo) (y + yo) w h.
Proof.
  intros Hs E0 E1 E23. destruct c0 as [t0 v0], c1 as [t1 v1]. cbn [l_type] in *. subst t0 t1.
  destruct Hs as [->|[->| ->]].
  - exists (px (v0 + - xo) :: px (v1 + - yo) :: c2 :: c3 :: cs). split; [reflexivity|]. intros x y w h. unfold px. cbn [TestPoint TestCircle GetValue bind l_type l_value].
    destruct (GetValue c2 _); cbn [bind]; [|reflexivity]. f_equal. f_equal. ring.
  - exists (px (v0 + - xo) :: px (v1 + - yo) :: c2 :: c3 :: cs). split; [reflexivity|]. intros x y w h. unfold px. cbn [TestPoint TestEllipse GetValue bind l_type l_value].
    destruct (GetValue c2 w); cbn [bind]; [|reflexivity]. destruct (GetValue c3 h); cbn [bind]; [|reflexivity].
    f_equal. f_equal. ring.
  - destruct (E23 eq_refl) as [E2 E3]. destruct c2 as [t2 v2], c3 as [t3 v3]. cbn [l_type] in *. subst t2 t3.
    exists (px (v0 + - xo) :: px (v1 + - yo) :: px (v2 + - xo) :: px (v3 + - yo) :: cs).
    split; [reflexivity|]. intros x y w h. unfold px. cbn [TestPoint TestRect GetValue bind l_type l_value].
    destruct (v0 + - xo >? v2 + - xo) eqn:F1, (v0 >? v2) eqn:F2; try lia;
    destruct (v1 + - yo >? v3 + - yo) eqn:F3, (v1 >? v3) eqn:F4; try lia;
    repeat match goal with |- context [if ?b then _ else _] => destruct b eqn:? end; try reflexivity; lia.
Qed.

(** Offsets of polygons are never computed either. *)
Theorem C100_offset_refuted fuel cs xo yo : (2 <= length cs)%nat -> Forall (fun l => l_type l = Pixel) cs ->
  OffsetShape fuel poly cs xo yo = Err OutOfFuel.
Proof. apply offset_poly_loops. Qed.

Example C100_ex : CalculateShapeBounds 9 circle [px 10; px 10; px 5] = Ok (5, 5, 15, 15) /\
  OffsetShape 9 rect [px 10; px 10; px 20; px 20] 3 4 = Ok [px 7; px 6; px 17; px 16] /\
  OffsetShape 9 rect [mkLen Percentage 10; px 10; px 20; px 20] 3 4 = Err TypeError.
Proof. repeat split. Qed.

(** ** C101: areas of QTI version 1 *)

(** The numbers of the text, in order, if it does not start with a separator. *)
Theorem C101_numbers_partial a value ns :
  match value with c :: _ => num_char c | [] => True end ->
  Forall2 int_part (XmlCharsSpec.words (fun c => negb (is_num_char c)) value) ns ->
  match a with
  | Bounded => MigrateV2AreaCoords a value = Ok (poly, map px ns)
  | Rectangle => forall x y h w r, ns = x :: y :: h :: w :: r ->
      MigrateV2AreaCoords a value = Ok (rect, map px [x; y; x + w - 1; y + h - 1])
  | Ellipse => forall x y d1 d2 r, ns = x :: y :: d1 :: d2 :: r ->
      MigrateV2AreaCoords a value =
        Ok (if d1 =? d2 then (circle, map px [x; y; d1 / 2]) else (ellipse, map px [x; y; d1 / 2; d2 / 2]))
  end.
Proof.
  intros Hv HF.
  assert (HS : scan value false [] [] = Ok ns).
  { rewrite scan_start.
    - apply map_result_ok. fold sep_char in HF.
      pose proof (XmlCharsProofs2.words_good sep_char value [] (Forall_nil _)) as HG.
      fold (XmlCharsSpec.words sep_char value) in HG. change (fun c => negb (is_num_char c)) with sep_char in HF.
      induction HF as [|s n l m Hn _ IH]; constructor.
      + apply Forall_cons_iff in HG as [[G1 G2] _]. apply int_float_iff; [exact G1| |exact Hn].
        eapply Forall_impl; [|exact G2]. intros c Hc. apply num_char_iff. unfold sep_char in Hc. now destruct (is_num_char c).
      + apply IH. now apply Forall_cons_iff in HG as [_ HG].
    - destruct value; [exact I|]. now apply num_char_iff. }
  unfold MigrateV2AreaCoords. rewrite HS. cbn [bind]. destruct a.
  - intros x y d1 d2 r ->. destruct (d1 =? d2); reflexivity.
  - intros x y h w r ->. reflexivity.
  - reflexivity.
Qed.

(** White space before the first number splits that number. *)
Theorem C101_numbers_refuted :
  MigrateV2AreaCoords Bounded (lit " 10,20,30") = Ok (poly, map px [1; 0; 20; 30]).
Proof. vm_compute. reflexivity. Qed.

(** A rectangle of w by h pixels loses its last column and row. *)
Theorem C101_rectangle x y w h p q : 1 <= w -> 1 <= h ->
  exists b, TestPoint rect (map px [x; y; x + w - 1; y + h - 1]) p q None None = Ok b /\
    (b = true <-> x <= p < x + w - 1 /\ y <= q < y + h - 1).
Proof.
  intros Hw Hh.
  destruct (TestRect_spec None None (px x) (px y) (px (x + w - 1)) (px (y + h - 1)) [] x y (x + w - 1) (y + h - 1) p q)
    as (b & E & Hb); try reflexivity.
  exists b. split; [exact E|]. rewrite Hb. unfold in_rectangle. cbn [fst snd]. lia.
Qed.

Theorem C101_rectangle_refuted : exists s cs, MigrateV2AreaCoords Rectangle (lit "10,20,5,5") = Ok (s, cs) /\
  TestPoint s cs 14 20 None None = Ok false.
Proof. eexists _, _. split; vm_compute; reflexivity. Qed.

(** Fewer than four numbers for an ellipse raise NameError. *)
Theorem C101_ellipse_refuted : MigrateV2AreaCoords Ellipse (lit "10,10") = Err NameError.
Proof. vm_compute. reflexivity. Qed.

Example C101_ex : MigrateV2AreaCoords Ellipse (lit "10,10,2,2") = Ok (circle, map px [10; 10; 1]) /\
  MigrateV2AreaCoords Ellipse (lit "10.5 10;2,4.") = Ok (ellipse, map px [10; 10; 1; 2]) /\
  Forall2 int_part (XmlCharsSpec.words (fun c => negb (is_num_char c)) (lit "10.5 7")) [10; 7].
Proof.
  split; [vm_compute; reflexivity|]. split; [vm_compute; reflexivity|].
  change (XmlCharsSpec.words (fun c => negb (is_num_char c)) (lit "10.5 7")) with [[49; 48; 46; 53]; [55]].
  constructor; [|constructor; [|constructor]].
  - exists [49; 48], [53]. split; [repeat constructor; lia|]. split; [repeat constructor; lia|]. split; [reflexivity|]. right. now split.
  - exists [55], []. split; [repeat constructor; lia|]. split; [constructor|]. split; [reflexivity|]. left. split; [reflexivity|]. split; [reflexivity|discriminate].
Qed.

Print Assumptions C59_rect.
Print Assumptions C59_circle.
Print Assumptions C59_ellipse_partial.
Print Assumptions C59_ellipse_refuted.
Print Assumptions C59_poly_even_odd.
Print Assumptions C59_poly_same_polygon.
Print Assumptions C59_poly_cut.
Print Assumptions C59_poly_in_box.
Print Assumptions C59_poly_rect.
Print Assumptions C59_poly_moves.
Print Assumptions C59_poly_errors.
Print Assumptions C99_length.
Print Assumptions C99_coords_partial.
Print Assumptions C99_coords_refuted.
Print Assumptions C100_bounds_partial.
Print Assumptions C100_bounds_refuted.
Print Assumptions C100_bounds_rect_refuted.
Print Assumptions C100_offset_partial.
Print Assumptions C100_offset_refuted.
Print Assumptions C101_numbers_partial.
Print Assumptions C101_numbers_refuted.
Print Assumptions C101_rectangle.
Print Assumptions C101_rectangle_refuted.
Print Assumptions C101_ellipse_refuted.

Print Assumptions C99_length_any.
