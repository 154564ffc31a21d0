From Coq Require Import Lia.
From Verif Require Import Py Lti LtiSpec.
Open Scope Z_scope.
Open Scope list_scope.

(** ** Nonces *)
Section Nonces.
Variable window : Z.
Fixpoint ordered (l : list (str * Z)) : Prop :=
  match l with [] => True | (_, t) :: r => Forall (fun p => t <= snd p) r /\ ordered r end.
Lemma trim_in old l p : ordered l -> (In p (trim old l) <-> In p l /\ old <= snd p).
Proof.
  induction l as [|[n t] r IH]; cbn [trim ordered]; [intros _; split; [intros []|intros [[] _]]|].
  intros [F O]. destruct (t <? old) eqn:E; [apply Z.ltb_lt in E|apply Z.ltb_ge in E].
  - rewrite (IH O). cbn [In]. split; [tauto|]. intros [[<- |H] L]; [cbn in L; lia|auto].
  - split; [|tauto]. intros H. split; [assumption|]. destruct H as [<- |H]; [assumption|]. rewrite Forall_forall in F. specialize (F p H). lia.
Qed.
Lemma trim_ordered old l : ordered l -> ordered (trim old l).
Proof. induction l as [|[n t] r IH]; cbn [trim ordered]; [auto|]. intros [F O]. destruct (t <? old); [auto|]. cbn [ordered]. auto. Qed.
Lemma ordered_snoc l n t : ordered l -> Forall (fun p => snd p <= t) l -> ordered (l ++ [(n, t)]).
Proof.
  induction l as [|[m u] r IH]; cbn [app ordered]; intros O F; [auto|]. inversion F; subst. destruct O as [O1 O2]. split; [|auto].
  apply Forall_app. split; [assumption|]. constructor; [assumption|constructor].
Qed.
(** The list kept, after the calls made so far: those accepted, or all of them in the window *)
Definition keeps (done : list (str * Z)) (bs : list bool) (l : list (str * Z)) (now : Z) : Prop :=
  ordered l /\ Forall (fun p => snd p <= now) l /\ length bs = length done /\
  (forall i n t, call done i n t -> t <= now) /\
  (forall n t, In (n, t) l -> exists i, call done i n t /\ nth_error bs i = Some false) /\
  (forall i n t, call done i n t -> nth_error bs i = Some false -> now - window <= t -> In (n, t) l).
Lemma nth_snoc_old {A} (l : list A) x i y : nth_error l i = Some y -> nth_error (l ++ [x]) i = Some y.
Proof. intros H. rewrite nth_error_app1; [assumption|]. apply nth_error_Some. congruence. Qed.
Lemma nth_snoc_new {A} (l : list A) x i y : nth_error (l ++ [x]) i = Some y -> nth_error l i = Some y \/ i = length l /\ y = x.
Proof.
  intros H. destruct (Nat.lt_ge_cases i (length l)) as [L|L]; [left; now rewrite nth_error_app1 in H|].
  right. rewrite nth_error_app2 in H by assumption. destruct (i - length l)%nat as [|k] eqn:E.
  - injection H as <-. split; [lia|reflexivity].
  - destruct k; discriminate.
Qed.
Lemma check_step done bs l now n t b l' : keeps done bs l now -> now <= t -> CheckNonce window n t l = (b, l') ->
  keeps (done ++ [(n, t)]) (bs ++ [b]) l' t /\
  (b = true <-> exists i u, call done i n u /\ nth_error bs i = Some false /\ t - window <= u).
Proof.
  intros (O & F & Lb & Ht & K1 & K2) T. unfold CheckNonce. set (l1 := trim (t - window) l).
  assert (ordered l1) as O1 by (now apply trim_ordered).
  assert (forall p, In p l1 <-> In p l /\ t - window <= snd p) as I1 by (intros p; now apply trim_in).
  assert (existsb (fun p => str_eqb (fst p) n) l1 = true <-> exists i u, call done i n u /\ nth_error bs i = Some false /\ t - window <= u) as B.
  { rewrite existsb_exists. split.
    - intros ([m u] & Hi & E). apply str_eqb_eq in E. cbn in E. subst m. apply I1 in Hi. destruct Hi as [Hi L]. cbn in L.
      destruct (K1 _ _ Hi) as (i & C & N). exists i, u. auto.
    - intros (i & u & C & N & L). exists (n, u). split; [|now apply str_eqb_eq]. apply I1. split; [|assumption]. apply (K2 i n u C N). lia. }
  assert (Forall (fun p => snd p <= t) l1) as F1.
  { apply Forall_forall. intros p Hp. apply I1 in Hp. rewrite Forall_forall in F. specialize (F p (proj1 Hp)). lia. }
  assert (forall i m u, call (done ++ [(n, t)]) i m u -> u <= t) as Ht'.
  { intros i m u C. apply nth_snoc_new in C. destruct C as [C|[_ [= -> ->]]]; [|lia]. specialize (Ht i m u C). lia. }
  destruct (existsb (fun p => str_eqb (fst p) n) l1) eqn:E; intros [= <- <-].
  - split; [|rewrite <- B; tauto]. repeat split; auto; [rewrite !app_length; cbn; lia| |].
    + intros m u Hi. apply I1 in Hi. destruct (K1 m u (proj1 Hi)) as (i & C & N). exists i. split; now apply nth_snoc_old.
    + intros i m u C N L. apply nth_snoc_new in C. destruct C as [C|[-> _]].
      * apply I1. split; [|assumption]. apply nth_snoc_new in N. destruct N as [N|[_ N]]; [|discriminate]. apply (K2 i m u C N). lia.
      * rewrite nth_error_app2 in N by lia. rewrite <- Lb, Nat.sub_diag in N. discriminate.
  - split; [|rewrite <- B; split; [discriminate|congruence]]. repeat split; auto; [now apply ordered_snoc| |rewrite !app_length; cbn; lia| |].
    + apply Forall_app. split; [assumption|]. constructor; [cbn; lia|constructor].
    + intros m u Hi. apply in_app_iff in Hi. destruct Hi as [Hi|[[= <- <-]|[]]].
      * apply I1 in Hi. destruct (K1 m u (proj1 Hi)) as (i & C & N). exists i. split; now apply nth_snoc_old.
      * exists (length done). split; [unfold call; now rewrite nth_error_app2, Nat.sub_diag by lia|].
        rewrite <- Lb. now rewrite nth_error_app2, Nat.sub_diag by lia.
    + intros i m u C N L. apply in_app_iff. apply nth_snoc_new in C. destruct C as [C|[-> [= -> ->]]]; [|right; now left].
      left. apply I1. split; [|assumption]. apply nth_snoc_new in N. destruct N as [N|[-> _]]; [apply (K2 i m u C N); lia|].
      assert (length bs < length done)%nat; [|lia]. unfold call in C. apply nth_error_Some. congruence.
Qed.
Lemma calls_keep : forall cs done bs l now, keeps done bs l now -> steady now cs ->
  forall i n t, call cs i n t -> exists b, nth_error (calls window l cs) i = Some b /\
    (b = true <-> exists j u, (j < length done + i)%nat /\ call (done ++ cs) j n u /\ nth_error (bs ++ calls window l cs) j = Some false /\ t - window <= u).
Proof.
  induction cs as [|[m s] cs IH]; intros done bs l now K S i n t C; [destruct i; discriminate|].
  destruct S as [S1 S2]. cbn [calls]. destruct (CheckNonce window m s l) as [b l1] eqn:E.
  destruct (check_step _ _ _ _ _ _ _ _ K S1 E) as [K' B]. destruct K as (_ & _ & Lb & _).
  destruct i as [|i].
  - injection C as <- <-. exists b. split; [reflexivity|]. rewrite B. split.
    + intros (j & u & C & N & L). exists j, u. assert (j < length done)%nat as J by (apply nth_error_Some; unfold call in C; congruence).
      split; [lia|]. unfold call. rewrite !nth_error_app1 by lia. auto.
    + intros (j & u & J & C & N & L). exists j, u. unfold call in *. rewrite nth_error_app1 in C by lia. rewrite nth_error_app1 in N by lia. auto.
  - destruct (IH _ _ _ _ K' S2 i n t C) as (b' & N & B'). exists b'. split; [exact N|]. rewrite B'.
    rewrite app_length. cbn [length]. rewrite <- !app_assoc. cbn [app].
    replace (length done + 1 + i)%nat with (length done + S i)%nat by lia. reflexivity.
Qed.
Theorem calls_good cs t0 : steady t0 cs -> forall i n t, call cs i n t -> exists b, nth_error (calls window [] cs) i = Some b /\
  (b = true <-> exists j u, (j < i)%nat /\ call cs j n u /\ nth_error (calls window [] cs) j = Some false /\ t - window <= u).
Proof.
  intros S i n t C. apply (calls_keep cs [] [] [] t0); auto.
  repeat split; cbn; auto; [intros [|?] ? ? X; discriminate|intros ? ? []|intros [|?] ? ? X; discriminate].
Qed.
End Nonces.

(** ** Keys *)
Lemma hex_ok d : 0 <= d < 16 -> is_hex (hex d).
Proof. intros H. unfold hex, is_hex. destruct (d <? 10) eqn:E; [apply Z.ltb_lt in E|apply Z.ltb_ge in E]; lia. Qed.
Lemma hex_inj d e : 0 <= d < 16 -> 0 <= e < 16 -> hex d = hex e -> d = e.
Proof. unfold hex. destruct (d <? 10) eqn:E, (e <? 10) eqn:F; rewrite ?Z.ltb_lt, ?Z.ltb_ge in *; lia. Qed.
Definition byte (b : Z) : Prop := 0 <= b < 256.
Lemma byte_parts b : byte b -> 0 <= b / 16 < 16 /\ 0 <= b mod 16 < 16 /\ b = 16 * (b / 16) + b mod 16.
Proof.
  intros H. unfold byte in H. pose proof (Z.mod_pos_bound b 16 ltac:(lia)). pose proof (Z.div_mod b 16 ltac:(lia)).
  split; [|split; [assumption|assumption]]. split; [apply Z.div_pos; lia|apply Z.div_lt_upper_bound; lia].
Qed.
Lemma fours_nil bs n : length bs = (2 * S n)%nat -> fours bs <> [].
Proof. destruct bs as [|a [|b r]]; cbn [length fours]; intros H; try discriminate; lia. Qed.
Theorem key_grouped : forall n bytes, Forall byte bytes -> length bytes = (2 * S n)%nat -> grouped (S n) (GenerateKey bytes).
Proof.
  unfold GenerateKey. induction n as [|n IH]; intros bs F L; destruct bs as [|a [|b r]]; try (cbn in L; lia).
  - destruct r; [|cbn in L; lia]. cbn [fours join_dots hex2 app]. inversion F as [|? ? Ha F']; subst. inversion F' as [|? ? Hb _]; subst.
    destruct (byte_parts a Ha) as (A1 & A2 & _). destruct (byte_parts b Hb) as (B1 & B2 & _). constructor; now apply hex_ok.
  - inversion F as [|? ? Ha F']; subst. inversion F' as [|? ? Hb F2]; subst.
    assert (length r = (2 * S n)%nat) as Lr by (cbn [length] in L; lia). cbn [fours]. pose proof (fours_nil r n Lr) as Nn. specialize (IH r F2 Lr).
    cbn [join_dots]. destruct (fours r) as [|x y] eqn:E; [contradiction|]. cbn [hex2 app].
    destruct (byte_parts a Ha) as (A1 & A2 & _). destruct (byte_parts b Hb) as (B1 & B2 & _). constructor; auto using hex_ok.
Qed.
Theorem key_inj : forall n xs ys, Forall byte xs -> Forall byte ys -> length xs = (2 * n)%nat -> length ys = (2 * n)%nat ->
  GenerateKey xs = GenerateKey ys -> xs = ys.
Proof.
  unfold GenerateKey. induction n as [|n IH]; intros xs ys Fx Fy Lx Ly.
  - destruct xs; [|discriminate]. destruct ys; [|discriminate]. reflexivity.
  - destruct xs as [|a [|b xs]]; try (cbn in Lx; lia). destruct ys as [|c [|d ys]]; try (cbn in Ly; lia).
    inversion Fx as [|? ? Ha Fx']; subst. inversion Fx' as [|? ? Hb Fx2]; subst. inversion Fy as [|? ? Hc Fy']; subst. inversion Fy' as [|? ? Hd Fy2]; subst.
    cbn [fours]. intros H.
    assert (exists u v, join_dots ((hex2 a ++ hex2 b) :: fours xs) = hex2 a ++ hex2 b ++ u /\ join_dots ((hex2 c ++ hex2 d) :: fours ys) = hex2 c ++ hex2 d ++ v /\
            (u = v -> join_dots (fours xs) = join_dots (fours ys))) as (u & v & Hu & Hv & Huv).
    { cbn [join_dots]. destruct (fours xs) as [|x x'] eqn:Ex, (fours ys) as [|y y'] eqn:Ey.
      - exists [], []. repeat split; reflexivity.
      - exfalso. destruct n; [destruct ys; [discriminate|cbn in Ly; lia]|]. apply (fours_nil xs n); [cbn in Lx; lia|assumption].
      - exfalso. destruct n; [destruct xs; [discriminate|cbn in Lx; lia]|]. apply (fours_nil ys n); [cbn in Ly; lia|assumption].
      - eexists _, _. split; [reflexivity|]. split; [reflexivity|]. intros [= E]. exact E. }
    rewrite Hu, Hv in H. cbn [hex2 app] in H. injection H as H1 H2 H3 H4 H5.
    destruct (byte_parts a Ha) as (A1 & A2 & A3). destruct (byte_parts b Hb) as (B1 & B2 & B3).
    destruct (byte_parts c Hc) as (C1 & C2 & C3). destruct (byte_parts d Hd) as (D1 & D2 & D3).
    apply hex_inj in H1; auto. apply hex_inj in H2; auto. apply hex_inj in H3; auto. apply hex_inj in H4; auto.
    assert (a = c) by (rewrite A3, C3; congruence). assert (b = d) by (rewrite B3, D3; congruence). subst c d. do 2 f_equal.
    apply IH; auto; cbn in Lx, Ly; lia.
Qed.

(** ** Consumers *)
Lemma get_set k v j cs : get j (set k v cs) = if str_eqb k j then Some v else get j cs.
Proof.
  induction cs as [|[n w] r IH]; cbn [set get]; [reflexivity|]. destruct (str_eqb n k) eqn:E; cbn [get].
  - apply str_eqb_eq in E. subst n. destruct (str_eqb k j); reflexivity.
  - destruct (str_eqb n j) eqn:F; [|exact IH]. apply str_eqb_eq in F. subst n. destruct (str_eqb k j) eqn:H; [|reflexivity].
    apply str_eqb_eq in H. subst k. apply str_eqb_neq in E. contradiction.
Qed.

(** ** The file *)
Lemma ws_white c : ws c = true <-> white c.
Proof. unfold ws, white. rewrite orb_true_iff, andb_true_iff, !Z.leb_le, Z.eqb_eq. tauto. Qed.
Lemma words_go w : Forall (fun c => ~ white c) w -> forall cur r, words_from cur (w ++ r) = words_from (cur ++ w) r.
Proof.
  induction 1 as [|c w Hc _ IH]; intros cur r; cbn [app words_from]; [now rewrite app_nil_r|].
  assert (ws c = false) as -> by (destruct (ws c) eqn:E; [apply ws_white in E; contradiction|reflexivity]).
  rewrite IH, <- app_assoc. reflexivity.
Qed.
Lemma split_line k v : word k -> word v -> split (line_of (k, v)) = [k; v].
Proof.
  intros [Nk Fk] [Nv Fv]. unfold split, line_of. cbn [fst snd]. rewrite (words_go k Fk). cbn [app words_from]. change (ws 32) with true. cbv iota.
  destruct k as [|a k]; [contradiction|]. f_equal. rewrite (words_go v Fv). cbn [app words_from]. change (ws 10) with true. cbv iota.
  destruct v as [|b v]; [contradiction|]. reflexivity.
Qed.
Lemma lines_go w : Forall (fun c => c <> 10) w -> forall cur r, lines_from cur (w ++ r) = lines_from (cur ++ w) r.
Proof.
  induction 1 as [|c w Hc _ IH]; intros cur r; cbn [app lines_from]; [now rewrite app_nil_r|].
  apply Z.eqb_neq in Hc. rewrite Hc, IH, <- app_assoc. reflexivity.
Qed.
Lemma word_no_end w : Forall (fun c => ~ white c) w -> Forall (fun c => c <> 10) w.
Proof. apply Forall_impl. intros c H ->. apply H. left. lia. Qed.
Lemma lines_save : forall ps, Forall (fun p => word (fst p) /\ word (snd p)) ps -> lines_from [] (SaveToFile ps) = map line_of ps.
Proof.
  unfold SaveToFile. induction 1 as [|[k v] ps [[_ Fk] [_ Fv]] _ IH]; cbn [flat_map map]; [reflexivity|]. cbn [fst snd] in *.
  assert (line_of (k, v) = (k ++ 32 :: v) ++ [10]) as -> by (unfold line_of; cbn [fst snd]; rewrite <- app_assoc; reflexivity).
  rewrite <- app_assoc. rewrite lines_go.
  - cbn [app lines_from]. change (10 =? 10) with true. cbv iota. now rewrite IH.
  - apply Forall_app. split; [now apply word_no_end|]. constructor; [lia|now apply word_no_end].
Qed.
Lemma load_save : forall ps cs, Forall (fun p => word (fst p) /\ word (snd p) /\ nth 0 (fst p) 0 <> 35) ps ->
  NoDup (map fst ps) -> (forall k, In k (map fst ps) -> get k cs = None) ->
  exists cs', load_lines (map line_of ps) cs = (cs', false) /\
    forall k, get k cs' = match get k ps with Some v => Some v | None => get k cs end.
Proof.
  intros ps. induction ps as [|[k v] ps IH]; intros cs F D H; cbn [map load_lines]; [exists cs; split; reflexivity|].
  inversion F as [|? ? (Wk & Wv & Hk) F']; subst. cbn [fst snd] in *. cbn [map] in D. inversion D as [|? ? Ni D']; subst.
  assert (match line_of (k, v) with c :: _ => c =? 35 | [] => false end = false) as ->.
  { destruct Wk as [Nk _]. destruct k as [|c k]; [contradiction|]. cbn. apply Z.eqb_neq. exact Hk. }
  rewrite split_line by assumption. rewrite (H k) by (now left).
  destruct (IH (set k v cs) F' D') as (cs' & L & G).
  { intros j J. rewrite get_set. destruct (str_eqb k j) eqn:E; [apply str_eqb_eq in E; subst j; contradiction|]. apply H. now right. }
  exists cs'. split; [exact L|]. intros j. rewrite G. cbn [get]. rewrite get_set. destruct (str_eqb k j) eqn:E; [|reflexivity].
  apply str_eqb_eq in E. subst j. destruct (get k ps) as [w|] eqn:Gk; [|reflexivity]. exfalso. apply Ni.
  clear - Gk. induction ps as [|[n u] r IH]; cbn [get map] in *; [discriminate|]. destruct (str_eqb n k) eqn:E; [apply str_eqb_eq in E; now left|right; auto].
Qed.
Lemma grouped_word n s : grouped n s -> word s /\ nth 0 s 0 <> 35.
Proof.
  assert (forall c, is_hex c -> ~ white c) as A by (intros c; unfold is_hex, white; lia).
  intros G. split.
  - split; [destruct G; discriminate|]. induction G; repeat (constructor; [auto; unfold white; lia|]); auto.
  - destruct G as [a b c d Ha|n a b c d s Ha]; cbn [nth]; unfold is_hex in Ha; lia.
Qed.
