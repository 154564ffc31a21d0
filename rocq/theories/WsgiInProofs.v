From Coq Require Import Lia.
From Verif Require Import Py WsgiIn WsgiInSpec.
Open Scope nat_scope.
Open Scope list_scope.

(** [c] is what has been taken from the input *)
Record good (cl : option nat) (input : str) (s : inp) (c : str) : Prop := mkGood {
  g_len : ilen s = cl;
  g_src : input = c ++ src s;
  g_max : match cl with Some l => length c <= l | None => True end;
  g_near : pos s <= length (buf s) -> bpos s = pos s /\ c = buf s;
  g_far : length (buf s) < pos s -> length c = pos s;
  g_dead : live s = false -> c = body cl input }.

Lemma body_split cl c t : match cl with Some l => length c <= l | None => True end ->
  body cl (c ++ t) = c ++ match cl with Some l => firstn (l - length c) t | None => t end.
Proof. destruct cl as [l|]; intros H; cbn [body]; [|reflexivity]. now rewrite firstn_app, firstn_all2 by assumption. Qed.
Lemma raw_read_pos n s : raw_read (Z.of_nat n) s =
  (firstn (match sched s with [] => n | j :: _ => Nat.min (S j) n end) (src s),
   mkIn (skipn (match sched s with [] => n | j :: _ => Nat.min (S j) n end) (src s)) (tl (sched s)) (live s) (ilen s) (pos s) (bpos s) (buf s)).
Proof.
  unfold raw_read. assert ((Z.of_nat n <? 0)%Z = false) as -> by (apply Z.ltb_ge; lia). rewrite Nat2Z.id. reflexivity.
Qed.
(** What a read of the input gives *)
Lemma raw_ok n s d s' : raw_read (Z.of_nat n) s = (d, s') ->
  src s = d ++ src s' /\ length d <= n /\ (d = [] -> n = 0 \/ src s = []) /\
  live s' = live s /\ ilen s' = ilen s /\ pos s' = pos s /\ bpos s' = bpos s /\ buf s' = buf s.
Proof.
  rewrite raw_read_pos. set (k := match sched s with [] => n | j :: _ => Nat.min (S j) n end). intros [= <- <-]. cbn [src live ilen pos bpos buf].
  assert (k <= n /\ (k = 0 -> n = 0)) as [K1 K2] by (unfold k; destruct (sched s); lia).
  split; [now rewrite firstn_skipn|]. split; [rewrite firstn_length; lia|]. split; [|auto 6].
  intros E. destruct (src s) as [|a t]; [auto|]. destruct k; [left; auto|discriminate].
Qed.
Lemma firstn_len_app (a b : str) : firstn (length a) (a ++ b) = a.
Proof. now rewrite firstn_app, Nat.sub_diag, firstn_all, firstn_O, app_nil_r. Qed.
Lemma skipn_len_app (a b : str) : skipn (length a) (a ++ b) = b.
Proof. now rewrite skipn_app, Nat.sub_diag, skipn_all. Qed.

(** ** Opening *)
Lemma fill_good cl input : forall fuel k s, good cl input s (buf s) -> pos s = 0 -> live s = true ->
  match cl with Some l => k <= l | None => True end ->
  let s' := fill fuel k s in good cl input s' (buf s') /\ pos s' = 0.
Proof.
  induction fuel as [|f IH]; intros k s G P L K; cbn [fill]; [auto|].
  destruct (length (buf s) <? k) eqn:E; [apply Nat.ltb_lt in E|auto].
  destruct (raw_read (Z.of_nat (k - length (buf s))) s) as [d s1] eqn:R.
  apply raw_ok in R. destruct R as (R1 & R2 & R3 & R4 & R5 & R6 & R7 & R8).
  destruct G as [G1 G2 G3 G4 G5 G6]. destruct (G4 ltac:(lia)) as [B _].
  destruct d as [|a d].
  - destruct R3 as [R3|R3]; [reflexivity|lia|]. rewrite R3 in R1. cbn [app] in R1. symmetry in R1.
    split; [|cbn; lia]. constructor; cbn [with_dead ilen src pos bpos buf live]; rewrite ?R5, ?R6, ?R7, ?R8, ?R1; auto.
    + now rewrite <- R3.
    + intros _. rewrite G2, R3, app_nil_r. destruct cl as [l|]; cbn [body]; [|reflexivity]. now rewrite firstn_all2.
  - apply IH; [|cbn; lia|cbn; congruence|assumption].
    constructor; cbn [with_buf ilen src pos bpos buf live]; rewrite ?R5, ?R6, ?R7, ?R8; auto.
    + rewrite <- app_assoc, <- R1. exact G2.
    + destruct cl as [l|]; [|exact I]. rewrite app_length. lia.
    + rewrite P. lia.
    + rewrite R4, L. discriminate.
Qed.
Theorem open_good k cl input reads : good cl input (Open k cl input reads) (buf (Open k cl input reads)) /\ tell (Open k cl input reads) = 0.
Proof.
  unfold Open. apply fill_good; try reflexivity.
  - constructor; cbn; auto; try lia; try discriminate. destruct cl; [lia|exact I].
  - destruct cl as [l|]; [|exact I]. destruct (l <? k) eqn:E; [lia|]. apply Nat.ltb_ge in E. lia.
Qed.

(** ** Reading *)
Definition gives (cl : option nat) (input : str) (s : inp) (n : nat) (d : str) (s' : inp) : Prop :=
  (exists r, skipn (pos s) (body cl input) = d ++ r) /\ length d <= n /\ pos s' = pos s + length d /\ buf s' = buf s /\
  (0 < n -> pos s < length (body cl input) -> d <> []).
Lemma stream_good cl input s c n d s' : good cl input s c -> length (buf s) <= pos s -> from_stream n s = (d, s') ->
  good cl input s' (c ++ d) /\ gives cl input s n d s'.
Proof.
  intros [G1 G2 G3 G4 G5 G6] P. assert (length c = pos s) as Lc.
  { destruct (Nat.eq_dec (pos s) (length (buf s))) as [E|E]; [|apply G5; lia]. destruct (G4 ltac:(lia)) as [_ ->]. auto. }
  pose proof (body_split cl c (src s) G3) as Eb. rewrite <- G2 in Eb.
  assert (skipn (pos s) (body cl input) = match cl with Some l => firstn (l - length c) (src s) | None => src s end) as Es.
  { now rewrite Eb, <- Lc, skipn_len_app. }
  unfold from_stream. destruct (0 <? n) eqn:En; cbn [andb]; [apply Nat.ltb_lt in En|].
  2:{ apply Nat.ltb_ge in En. intros [= <- <-]. rewrite app_nil_r. split; [constructor; auto|]. repeat split; cbn; try lia. eexists; reflexivity. }
  destruct (live s) eqn:Lv.
  2:{ intros [= <- <-]. rewrite app_nil_r. split; [constructor; auto; congruence|]. repeat split; cbn; try lia; [eexists; reflexivity|].
      intros _ H. rewrite <- (G6 eq_refl), Lc in H. lia. }
  set (m := match ilen s with Some l => _ | None => _ end).
  assert (exists k, m = Z.of_nat k /\ k <= n /\ match cl with Some l => k <= l - pos s /\ (k = 0 -> l = pos s) | None => k = n end) as (k & -> & K1 & K2).
  { unfold m. rewrite G1. destruct cl as [l|]; [|exists n; auto]. destruct (l <? pos s + n) eqn:E; [apply Nat.ltb_lt in E|apply Nat.ltb_ge in E].
    - exists (l - pos s). split; [lia|]. lia.
    - exists n. lia. }
  destruct (raw_read (Z.of_nat k) s) as [e s1] eqn:R. apply raw_ok in R. destruct R as (R1 & R2 & R3 & R4 & R5 & R6 & R7 & R8).
  destruct e as [|a e].
  - intros [= <- <-]. rewrite app_nil_r. cbn [app] in R1.
    assert (c = body cl input) as Cb.
    { rewrite Eb. destruct (R3 eq_refl) as [R| ->].
      - destruct cl as [l|]; [|lia]. rewrite Lc, (proj2 K2 R), Nat.sub_diag. now rewrite firstn_O, app_nil_r.
      - destruct cl; rewrite ?firstn_nil, app_nil_r; reflexivity. }
    split.
    + constructor; cbn [with_dead ilen src pos bpos buf live]; rewrite ?R5, ?R6, ?R7, ?R8, <- ?R1; auto.
    + repeat split; cbn [with_dead pos buf length app]; try lia; try assumption; [eexists; reflexivity|].
      intros _ H. rewrite <- Cb, Lc in H. lia.
  - set (d0 := a :: e) in *. intros [= <- <-].
    assert (length c + length d0 > length (buf s)) by (unfold d0; cbn [length]; lia).
    split.
    + constructor; cbn [with_pos ilen src pos bpos buf live]; rewrite ?R4, ?R5, ?R6, ?R7, ?R8; auto; try congruence.
      * rewrite <- app_assoc, <- R1. exact G2.
      * destruct cl as [l|]; [|exact I]. rewrite app_length. lia.
      * lia.
      * rewrite app_length. unfold d0. cbn [length]. lia.
    + split; [|split; [lia|split; [cbn [with_pos pos]; unfold d0; cbn [length]; lia|split; [exact R8|discriminate]]]].
      rewrite Es, R1. destruct cl as [l|].
      * rewrite firstn_app, firstn_all2 by lia. eexists; reflexivity.
      * eexists; reflexivity.
Qed.
Theorem read_good cl input s c n d s' : good cl input s c -> read n s = (d, s') ->
  exists c', good cl input s' c' /\ gives cl input s n d s'.
Proof.
  intros G. unfold read. destruct ((0 <? n) && (pos s <? length (buf s))) eqn:E.
  - apply andb_true_iff in E. destruct E as [En Ep]. apply Nat.ltb_lt in En, Ep.
    destruct G as [G1 G2 G3 G4 G5 G6]. destruct (G4 ltac:(lia)) as [B ->]. rewrite B.
    pose proof (body_split cl (buf s) (src s) G3) as Eb. rewrite <- G2 in Eb.
    set (x := firstn n (skipn (pos s) (buf s))).
    assert (length x = Nat.min n (length (buf s) - pos s)) as Lx by (unfold x; now rewrite firstn_length, skipn_length).
    set (s1 := with_pos s (pos s + length x) (pos s + length x)).
    assert (good cl input s1 (buf s)) as Gs1.
    { constructor; cbn [s1 with_pos ilen src pos bpos buf live]; auto. lia. }
    assert (skipn (pos s) (body cl input) = skipn (pos s) (buf s) ++ match cl with Some l => firstn (l - length (buf s)) (src s) | None => src s end) as Es.
    { rewrite Eb, skipn_app. replace (pos s - length (buf s)) with 0 by lia. reflexivity. }
    destruct (Nat.le_gt_cases n (length (buf s) - pos s)) as [C|C].
    + replace (n - length x) with 0 by lia. cbn [from_stream Nat.ltb Nat.leb andb]. intros [= <- <-]. rewrite app_nil_r.
      exists (buf s). split; [exact Gs1|]. split; [|cbn [s1 with_pos pos buf]; repeat split; try lia].
      * rewrite Es. exists (skipn n (skipn (pos s) (buf s)) ++ match cl with Some l => firstn (l - length (buf s)) (src s) | None => src s end).
        rewrite app_assoc. unfold x. now rewrite firstn_skipn.
      * intros _ _ X. rewrite X in Lx. cbn in Lx. lia.
    + destruct (from_stream (n - length x) s1) as [e s2] eqn:F. intros [= <- <-].
      apply (stream_good cl input s1 (buf s)) in F; [|assumption|cbn [s1 with_pos pos buf]; lia].
      destruct F as [G' ((r & Hr) & H2 & H3 & H4 & H5)]. cbn [s1 with_pos pos buf] in *.
      assert (x = skipn (pos s) (buf s)) as Ex by (unfold x; apply firstn_all2; rewrite skipn_length; lia).
      exists (buf s ++ e). split; [exact G'|]. split; [|rewrite app_length; repeat split; try lia; try assumption].
      * exists r. rewrite Es, <- app_assoc, <- Hr, Ex. f_equal.
        replace (pos s + length (skipn (pos s) (buf s))) with (length (buf s)) by (rewrite skipn_length; lia).
        now rewrite Eb, skipn_len_app.
      * intros _ _ X. apply app_eq_nil in X. destruct X as [X _]. rewrite X in Lx. cbn in Lx. lia.
  - intros F. apply andb_false_iff in E. destruct (Nat.eq_dec n 0) as [-> |N0].
    + cbn [from_stream Nat.ltb Nat.leb andb] in F. injection F as <- <-. exists c. split; [assumption|]. repeat split; cbn; try lia. eexists; reflexivity.
    + destruct E as [E|E]; [apply Nat.ltb_ge in E; lia|]. apply Nat.ltb_ge in E.
      exists (c ++ d). now apply stream_good with (s := s).
Qed.
