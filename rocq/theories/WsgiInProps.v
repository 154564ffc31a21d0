(** The properties of the wrapper of WSGI input *)
From Coq Require Import Lia.
From Verif Require Import Py WsgiIn WsgiInSpec WsgiInProofs WsgiInProofs2.
Open Scope nat_scope.
Open Scope list_scope.

(** ** C252: reading gives the body, from the position on, and no more of the input is taken *)
Theorem C252_read : forall k cl input reads block s n d s',
  0 < block -> reached k cl input reads block s -> read n s = (d, s') ->
  (exists r, skipn (tell s) (body cl input) = d ++ r) /\ length d <= n /\ tell s' = tell s + length d /\
  (d = [] <-> n = 0 \/ tell s = length (body cl input)).
Proof.
  intros k cl input reads block s n d s' B R A. destruct (reached_good _ _ _ _ _ _ B R) as [c G].
  destruct (read_good _ _ _ _ _ _ _ G A) as (c' & G' & V). pose proof (gives_next _ _ _ _ _ _ V) as N.
  destruct V as (V1 & V2 & V3 & _ & V5). unfold tell. repeat split; auto.
  - intros ->. destruct (Nat.eq_dec n 0); [auto|]. right. pose proof (pos_le _ _ _ _ G).
    destruct (Nat.le_gt_cases (length (body cl input)) (pos s)); [lia|]. destruct V5; [lia|assumption|reflexivity].
  - intros [-> |E].
    + destruct d; [reflexivity|cbn in V2; lia].
    + destruct V1 as [r V1]. rewrite E, skipn_all in V1. symmetry in V1. now apply app_eq_nil in V1.
Qed.
Theorem C252_taken : forall k cl input reads block s, 0 < block -> reached k cl input reads block s ->
  exists c, input = c ++ src s /\ (forall l, cl = Some l -> length c <= l) /\ tell s <= length c.
Proof.
  intros k cl input reads block s B R. destruct (reached_good _ _ _ _ _ _ B R) as [c G]. exists c.
  destruct G as [G1 G2 G3 G4 G5 G6]. split; [assumption|]. split; [intros l ->; exact G3|]. unfold tell.
  destruct (Nat.le_gt_cases (pos s) (length (buf s))) as [H|H]; [destruct (G4 H) as [_ ->]; assumption|rewrite (G5 H); lia].
Qed.
Theorem C252_all : forall k cl input reads block s, 0 < block -> reached k cl input reads block s ->
  (forall fuel, length (body cl input) < fuel -> exists s', readall fuel block s = Some (skipn (tell s) (body cl input), s')) /\
  (forall fuel d s', readall fuel block s = Some (d, s') -> d = skipn (tell s) (body cl input) /\ tell s' = length (body cl input)).
Proof.
  intros k cl input reads block s B R. destruct (reached_good _ _ _ _ _ _ B R) as [c G].
  assert (forall fuel d s', readall fuel block s = Some (d, s') -> d = skipn (tell s) (body cl input) /\ tell s' = length (body cl input)) as A.
  { intros fuel d s' H. destruct (readall_good _ _ _ B _ _ _ _ _ G H) as (_ & X & P & _). auto. }
  split; [|exact A]. intros fuel L. destruct (readall_ends cl input block B fuel s c G) as [[d s'] H]; [lia|].
  exists s'. rewrite H. destruct (A _ _ _ H) as [-> _]. reflexivity.
Qed.
(** Opened at the start, with as much in the buffer as was asked for, or all there is *)
Lemma fill_full k : forall fuel s, k - length (buf s) <= fuel -> length (buf s) <= k ->
  length (buf (fill fuel k s)) = k \/ src (fill fuel k s) = [] /\ length (buf (fill fuel k s)) <= k.
Proof.
  induction fuel as [|f IH]; intros s F L; cbn [fill]; [left; lia|].
  destruct (length (buf s) <? k) eqn:E; [apply Nat.ltb_lt in E|apply Nat.ltb_ge in E; left; lia].
  destruct (raw_read (Z.of_nat (k - length (buf s))) s) as [d s1] eqn:R. apply raw_ok in R.
  destruct R as (R1 & R2 & R3 & _ & _ & _ & _ & R8). destruct d as [|a d].
  - destruct R3 as [R3|R3]; [reflexivity|lia|]. right. cbn [with_dead src buf]. rewrite R8. cbn [app] in R1. split; [congruence|lia].
  - assert (length (buf (with_buf s1 (buf s1 ++ a :: d))) = length (buf s) + length (a :: d)) as Lb by (cbn [with_buf buf]; now rewrite app_length, R8).
    apply IH; rewrite Lb; cbn [length] in *; lia.
Qed.
Theorem C252_open : forall k cl input reads,
  tell (Open k cl input reads) = 0 /\ length (buf (Open k cl input reads)) = Nat.min k (length (body cl input)) /\
  seekable (Open k cl input reads) = true.
Proof.
  intros k cl input reads. destruct (open_good k cl input reads) as [G P]. set (s := Open k cl input reads) in *. split; [exact P|].
  split; [|unfold seekable, tell in *; rewrite P; reflexivity].
  set (k' := match cl with Some l => if (l <? k)%nat then l else k | None => k end).
  assert (length (buf s) = k' \/ src s = [] /\ length (buf s) <= k') as F.
  { unfold s, Open. fold k'. apply fill_full; cbn; lia. }
  assert (k' = match cl with Some l => Nat.min k l | None => k end) as Ek.
  { unfold k'. destruct cl as [l|]; [|reflexivity]. destruct (l <? k) eqn:E; [apply Nat.ltb_lt in E|apply Nat.ltb_ge in E]; lia. }
  pose proof (body_split cl (buf s) (src s) (g_max _ _ _ _ G)) as Eb. rewrite <- (g_src _ _ _ _ G) in Eb. pose proof (g_max _ _ _ _ G) as M.
  pose proof (f_equal (@length Z) Eb) as El. rewrite app_length in El.
  destruct F as [F|[F Lk]].
  - destruct cl as [l|]; [rewrite firstn_length in El|]; lia.
  - rewrite F in El. destruct cl as [l|]; rewrite ?firstn_nil in El; cbn [length] in El; lia.
Qed.
Definition hello : str := lit "hello world, more".
Example C252_case : 0 < 3 /\ reached 4 (Some 11) hello [1; 0; 2] 3 (snd (read 6 (Open 4 (Some 11) hello [1; 0; 2]))) /\
  read 6 (Open 4 (Some 11) hello [1; 0; 2]) = (lit "hello ", mkIn (lit "world, more") [] true (Some 11) 6 4 (lit "hell")).
Proof. split; [lia|]. split; [constructor; constructor|]. vm_compute. reflexivity. Qed.

(** ** C253: seeking: to positions in the buffer, while the position is in it, seeking does what it
    should; the errors are these; beyond the buffer it may not get where it says *)
Definition target (w : whence) (o : Z) (cl : option nat) (p : nat) : option Z :=
  match w with
  | SeekSet => Some o
  | SeekCur => Some (Z.of_nat p + o)%Z
  | SeekEnd => match cl with Some l => Some (Z.of_nat l + o)%Z | None => None end
  end.
Definition C253_seeks : Prop := forall k cl input reads block s w o s' n,
  0 < block -> reached k cl input reads block s -> seek block w o s = Some s' ->
  exists r, skipn (tell s') (body cl input) = fst (read n s') ++ r.
Theorem C253_partial : forall k cl input reads block s w o, 0 < block -> reached k cl input reads block s ->
  (seek block w o s = None <->
     seekable s = false \/ target w o cl (tell s) = None \/ exists p, target w o cl (tell s) = Some p /\ (p < 0)%Z) /\
  (forall s', seek block w o s = Some s' ->
     target w o cl (tell s) = Some (Z.of_nat (tell s')) /\ buf s' = buf s /\
     (tell s' <= length (buf s) -> seekable s' = true /\ forall n, exists r, skipn (tell s') (body cl input) = fst (read n s') ++ r)).
Proof.
  intros k cl input reads block s w o B R. destruct (reached_good _ _ _ _ _ _ B R) as [c G].
  assert (match w, ilen s with SeekSet, _ => Some o | SeekCur, _ => Some (Z.of_nat (pos s) + o)%Z
          | SeekEnd, None => None | SeekEnd, Some l => Some (Z.of_nat l + o)%Z end = target w o cl (tell s)) as T.
  { rewrite (g_len _ _ _ _ G). unfold target, tell. destruct w, cl; reflexivity. }
  split.
  - unfold seek. rewrite T. unfold seekable. destruct (length (buf s) <? pos s); cbn [negb]; [split; auto|].
    destruct (target w o cl (tell s)) as [p|]; [|split; auto]. cbv zeta.
    destruct (p <? 0)%Z eqn:E; [apply Z.ltb_lt in E|apply Z.ltb_ge in E].
    + split; [intros _; right; right; eauto|reflexivity].
    + split.
      * destruct (Z.to_nat p =? pos s); [discriminate|]. destruct (Z.to_nat p <=? length (buf s)); discriminate.
      * intros [X|[X|(q & [= <-] & X)]]; [discriminate|discriminate|lia].
  - intros s' H.
    assert (target w o cl (tell s) = Some (Z.of_nat (tell s')) /\ buf s' = buf s) as [A1 A2].
    { unfold seek in H. rewrite T in H. destruct (length (buf s) <? pos s); [discriminate|].
      destruct (target w o cl (tell s)) as [p|]; [|discriminate]. cbv zeta in H. destruct (p <? 0)%Z eqn:E; [discriminate|]. apply Z.ltb_ge in E.
      destruct (Z.to_nat p =? pos s) eqn:Ep; [apply Nat.eqb_eq in Ep; injection H as <-; unfold tell; split; [f_equal; lia|reflexivity]|].
      destruct (Z.to_nat p <=? length (buf s)); injection H as <-; unfold tell; cbn [with_pos pos buf]; rewrite ?discard_buf; split; auto; f_equal; lia. }
    split; [exact A1|]. split; [exact A2|]. intros L. split.
    + unfold seekable. fold (tell s'). rewrite A2. assert ((length (buf s) <? tell s') = false) as -> by (now apply Nat.ltb_ge). reflexivity.
    + intros n. assert (reached k cl input reads block s') as R'.
      { econstructor; [exact R|exact H|]. now rewrite A2. }
      destruct (read n s') as [d s2] eqn:Rd. cbn [fst]. now destruct (C252_read _ _ _ _ _ _ _ _ _ B R' Rd).
Qed.
(** From the start of an input that is not buffered to beyond one block and at most two: what is
    read is the byte after the first block, whatever position was asked for *)
Theorem C253_far : forall block input p, 0 < block < p -> p <= 2 * block -> p < length input ->
  exists s', seek block SeekSet (Z.of_nat p) (Open 0 None input []) = Some s' /\ tell s' = p /\
    fst (read 1 s') = firstn 1 (skipn block input).
Proof.
  intros block input p [B1 B2] L Li. unfold Open. cbn [fill]. unfold seek. cbn [buf pos length Nat.ltb Nat.leb].
  assert ((Z.of_nat p <? 0)%Z = false) as -> by (apply Z.ltb_ge; lia). rewrite Nat2Z.id. cbv zeta.
  assert ((p =? 0) = false) as -> by (apply Nat.eqb_neq; lia). assert ((p <=? 0) = false) as -> by (apply Nat.leb_gt; lia).
  eexists. split; [reflexivity|]. split; [reflexivity|].
  destruct p as [|[|q]]; [lia|lia|]. cbn [discard pos]. change (0 <? S (S q)) with true. cbv iota.
  assert (Nat.min (S (S q) - 0) block = block) as -> by lia.
  assert (read block (mkIn input [] true None 0 0 []) = (firstn block input, mkIn (skipn block input) [] true None block 0 [])) as ->.
  { unfold read, from_stream. cbn [pos buf length live ilen Nat.ltb]. rewrite andb_false_r. assert ((0 <? block) = true) as -> by (now apply Nat.ltb_lt). cbn [andb].
    rewrite raw_read_pos. cbn [sched src tl live ilen pos bpos buf].
    assert (length (firstn block input) = block) as Lf by (rewrite firstn_length; lia).
    destruct (firstn block input) as [|a t] eqn:F; [cbn in Lf; lia|]. unfold with_pos. cbn [src sched live ilen pos bpos buf]. now rewrite Lf. }
  assert (length (firstn block input) = block) as Lf by (rewrite firstn_length; lia).
  destruct (firstn block input) as [|a t] eqn:F; [cbn in Lf; lia|]. rewrite Lf. cbn [pos with_pos].
  assert ((block + block <? S (S q)) = false) as -> by (apply Nat.ltb_ge; lia).
  unfold read, from_stream, with_pos. cbn [src sched live ilen pos bpos buf length Nat.ltb Nat.leb andb].
  change 1%Z with (Z.of_nat 1). rewrite raw_read_pos. cbn [sched src].
  destruct (skipn block input) as [|b r] eqn:S; reflexivity.
Qed.
Theorem C253_refuted : ~ C253_seeks /\
  (exists k cl input block o s', cl = Some 3 /\ seek block SeekSet o (Open k cl input []) = Some s' /\
     length input = 17 /\ src (snd (read 1 s')) = []).
Proof.
  split.
  - intros H. destruct (C253_far 2 hello 4) as (s' & S & P & Rd); [lia|lia|vm_compute; lia|].
    destruct (H 0 None hello [] 2 _ SeekSet 4%Z s' 1 ltac:(lia) (ROpen _ _ _ _ _) S) as [r E]. rewrite P, Rd in E. vm_compute in E. discriminate.
  - exists 1, (Some 3), hello, 8, 5%Z. eexists. split; [reflexivity|]. split; [vm_compute; reflexivity|]. vm_compute. auto.
Qed.
Example C253_case : reached 4 None hello [] 8 (Open 4 None hello []) /\
  (exists s', seek 8 SeekCur 3 (Open 4 None hello []) = Some s' /\ tell s' = 3 /\ fst (read 2 s') = lit "lo") /\
  seek 8 SeekEnd 0 (Open 4 None hello []) = None /\ seek 8 SeekCur (-1) (Open 4 None hello []) = None.
Proof. split; [constructor|]. split; [eexists; split; [vm_compute; reflexivity|vm_compute; auto]|vm_compute; auto]. Qed.

(** ** C254: lines: readline gives the next line or the part of it the limit allows; reading the
    lines never ends, unless enough of them have been read for the hint *)
Definition C254_lines : Prop := forall k cl input reads block s, 0 < block -> reached k cl input reads block s ->
  exists fuel lf l s', readlines fuel lf None 0 s = Some (l, s') /\ concat l = skipn (tell s) (body cl input).
Theorem C254_refuted : ~ C254_lines /\ forall fuel lf s, readlines fuel lf None 0 s = None.
Proof.
  split; [|intros; apply readlines_never]. intros H. destruct (H 0 None [] [] 1 _ ltac:(lia) (ROpen _ _ _ _ _)) as (f & lf & l & s' & E & _).
  rewrite readlines_never in E. discriminate.
Qed.
Theorem C254_line : forall k cl input reads block s limit, 0 < block -> reached k cl input reads block s ->
  let rest := skipn (tell s) (body cl input) in
  let line := match limit with None => first_line rest | Some l => firstn l (first_line rest) end in
  (forall fuel, length (body cl input) < fuel -> exists s', readline fuel limit s = Some (line, s')) /\
  (forall fuel x s', readline fuel limit s = Some (x, s') -> x = line /\ tell s' = tell s + length line).
Proof.
  intros k cl input reads block s limit B R rest line. destruct (reached_good _ _ _ _ _ _ B R) as [c G].
  assert (forall fuel x s', readline fuel limit s = Some (x, s') -> x = line /\ tell s' = tell s + length line) as A.
  { intros fuel x s' H. destruct (readline_good _ _ _ _ _ _ _ _ G H) as (_ & X & P & _). unfold cut_line in X. unfold tell. rewrite P, X. auto. }
  split; [|exact A]. intros fuel L. destruct (readline_ends cl input limit fuel [] s c G) as [[x s'] H]; [lia|].
  exists s'. change (readline fuel limit s = Some (x, s')) in H. rewrite H. destruct (A _ _ _ H) as [-> _]. reflexivity.
Qed.
Theorem C254_hint_partial : forall k cl input reads block s h, 0 < block -> reached k cl input reads block s ->
  let rest := skipn (tell s) (body cl input) in
  (h < length rest -> forall fuel lf, length (body cl input) < fuel -> length (body cl input) < lf ->
     exists r, readlines fuel lf (Some h) 0 s = Some r) /\
  (forall fuel lf l s', readlines fuel lf (Some h) 0 s = Some (l, s') ->
     begins rest l /\ h < length (concat l) /\ length (concat (removelast l)) <= h).
Proof.
  intros k cl input reads block s h B R rest. destruct (reached_good _ _ _ _ _ _ B R) as [c G]. split.
  - intros H fuel lf Lf Ll. unfold rest, tell in H. rewrite skipn_length in H. apply (readlines_ends cl input h lf fuel 0 s c G); lia.
  - intros fuel lf l s' H. destruct (readlines_good _ _ _ _ _ _ _ _ _ _ G H) as (H1 & H2 & _ & H3). split; [exact H1|]. split; [exact H2|]. apply H3. lia.
Qed.
Definition three : str := lit "one" ++ [10%Z] ++ lit "two" ++ [10%Z] ++ lit "end".
Example C254_case : reached 5 None three [] 4 (Open 5 None three []) /\
  option_map fst (readline 20 None (Open 5 None three [])) = Some (lit "one" ++ [10%Z]) /\
  option_map fst (readline 20 (Some 2) (Open 5 None three [])) = Some (lit "on") /\
  option_map fst (readlines 20 20 (Some 4) 0 (Open 5 None three [])) = Some [lit "one" ++ [10%Z]; lit "two" ++ [10%Z]].
Proof. split; [constructor|]. vm_compute. auto. Qed.

Print Assumptions C252_read.
Print Assumptions C252_taken.
Print Assumptions C252_all.
Print Assumptions C252_open.
Print Assumptions C253_partial.
Print Assumptions C253_far.
Print Assumptions C253_refuted.
Print Assumptions C254_refuted.
Print Assumptions C254_line.
Print Assumptions C254_hint_partial.
