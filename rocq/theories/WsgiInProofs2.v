From Coq Require Import Lia.
From Verif Require Import Py WsgiIn WsgiInSpec WsgiInProofs.
Open Scope nat_scope.
Open Scope list_scope.

Lemma pos_le cl input s c : good cl input s c -> pos s <= length (body cl input).
Proof.
  intros [G1 G2 G3 G4 G5 G6]. rewrite G2, (body_split cl c (src s) G3), app_length.
  destruct (Nat.le_gt_cases (pos s) (length (buf s))) as [H|H]; [destruct (G4 H) as [_ ->]; lia|rewrite (G5 H); lia].
Qed.
Lemma skipn_more (t d r : str) p : skipn p t = d ++ r -> skipn (p + length d) t = r.
Proof.
  intros H. revert t H. induction p as [|p IH]; intros t H.
  - cbn in H. subst t. now rewrite Nat.add_0_l, skipn_len_app.
  - destruct t as [|a t]; cbn [skipn Nat.add] in *; [|auto].
    symmetry in H. apply app_eq_nil in H. destruct H as [-> ->]. now rewrite ?skipn_nil.
Qed.
Lemma gives_next cl input s n d s' : gives cl input s n d s' -> skipn (pos s) (body cl input) = d ++ skipn (pos s') (body cl input).
Proof. intros ((r & H) & _ & P & _). rewrite P, (skipn_more _ _ _ _ H). exact H. Qed.
Lemma at_end cl input s n s' : gives cl input s n [] s' -> 0 < n -> skipn (pos s) (body cl input) = [].
Proof.
  intros (_ & _ & _ & _ & H) N. apply skipn_all2. destruct (Nat.le_gt_cases (length (body cl input)) (pos s)) as [L|L]; [assumption|].
  destruct (H N L). reflexivity.
Qed.

(** ** All of it *)
Theorem readall_good cl input block : 0 < block -> forall fuel s c d s', good cl input s c -> readall fuel block s = Some (d, s') ->
  (exists c', good cl input s' c') /\ d = skipn (pos s) (body cl input) /\ pos s' = length (body cl input) /\ buf s' = buf s.
Proof.
  intros B. induction fuel as [|f IH]; intros s c d s' G; cbn [readall]; [discriminate|].
  destruct (read block s) as [x s1] eqn:R. apply (read_good cl input s c) in R; [|assumption]. destruct R as (c1 & G1 & V).
  destruct x as [|a x].
  - intros [= <- <-]. split; [eauto|]. rewrite (at_end _ _ _ _ _ V B). split; [reflexivity|].
    pose proof (pos_le _ _ _ _ G) as P. pose proof (f_equal (@length Z) (at_end _ _ _ _ _ V B)) as E. rewrite skipn_length in E.
    destruct V as (_ & _ & V3 & V4 & _). cbn in *. split; [lia|assumption].
  - destruct (readall f block s1) as [[e s2]|] eqn:A; [|discriminate]. intros [= <- <-].
    destruct (IH s1 c1 e s2 G1 A) as (G2 & -> & P & Q). split; [assumption|].
    split; [rewrite (gives_next _ _ _ _ _ _ V); reflexivity|]. split; [assumption|]. destruct V as (_ & _ & _ & V4 & _). congruence.
Qed.
Theorem readall_ends cl input block : 0 < block -> forall fuel s c, good cl input s c -> length (body cl input) - pos s < fuel ->
  exists r, readall fuel block s = Some r.
Proof.
  intros B. induction fuel as [|f IH]; intros s c G L; [lia|]. cbn [readall].
  destruct (read block s) as [x s1] eqn:R. apply (read_good cl input s c) in R; [|assumption]. destruct R as (c1 & G1 & V).
  destruct x as [|a x]; [eauto|]. destruct (IH s1 c1 G1) as [[e s2] ->]; [|eauto].
  pose proof (pos_le _ _ _ _ G1). destruct V as (_ & _ & V3 & _). cbn [length] in V3. lia.
Qed.

(** ** Lines *)
Lemma one_byte cl input s d s' : gives cl input s 1 d s' -> d = [] \/ exists a, d = [a].
Proof. intros (_ & L & _). destruct d as [|a [|b d]]; [auto|eauto|cbn in L; lia]. Qed.
Definition cut_line (limit : option nat) (t : str) : str :=
  match limit with None => first_line t | Some l => firstn l (first_line t) end.
Definition less (limit : option nat) (n : nat) : option nat := match limit with None => None | Some l => Some (l - n) end.
Lemma readline_from_good cl input limit : forall fuel line s c x s', good cl input s c -> readline_from fuel limit line s = Some (x, s') ->
  (exists c', good cl input s' c') /\
  x = line ++ cut_line (less limit (length line)) (skipn (pos s) (body cl input)) /\
  pos s' = pos s + length (cut_line (less limit (length line)) (skipn (pos s) (body cl input))) /\ buf s' = buf s.
Proof.
  induction fuel as [|f IH]; intros line s c x s' G; cbn [readline_from]; [discriminate|].
  destruct (match limit with None => true | Some l => length line <? l end) eqn:E.
  2:{ intros [= <- <-]. split; [eauto|]. destruct limit as [l|]; [|discriminate]. apply Nat.ltb_ge in E. cbn [less cut_line].
      replace (l - length line) with 0 by lia. rewrite firstn_O, app_nil_r. cbn. auto. }
  destruct (read 1 s) as [b s1] eqn:R. apply (read_good cl input s c) in R; [|assumption]. destruct R as (c1 & G1 & V).
  destruct (one_byte _ _ _ _ _ V) as [-> |[a ->]].
  - intros [= <- <-]. split; [eauto|]. rewrite (at_end _ _ _ _ _ V) by lia.
    assert (cut_line (less limit (length line)) [] = []) as -> by (destruct limit; cbn [less cut_line first_line]; rewrite ?firstn_nil; reflexivity).
    rewrite app_nil_r. destruct V as (_ & _ & V3 & V4 & _). cbn [length] in *. auto.
  - pose proof (gives_next _ _ _ _ _ _ V) as N. cbn [app] in N. destruct V as (_ & _ & V3 & V4 & _). cbn [length] in V3.
    assert (forall y, match limit with None => a :: y | Some l => firstn (l - length line) (a :: y) end =
                      a :: match limit with None => y | Some l => firstn (l - S (length line)) y end) as Hf.
    { intros y. destruct limit as [l|]; [|reflexivity]. apply Nat.ltb_lt in E. replace (l - length line) with (S (l - S (length line))) by lia. reflexivity. }
    assert (cut_line (less limit (length line)) (skipn (pos s) (body cl input)) =
            if (a =? 10)%Z then [a] else a :: cut_line (less limit (S (length line))) (skipn (pos s1) (body cl input))) as C.
    { rewrite N. unfold cut_line, less. cbn [first_line]. destruct (a =? 10)%Z.
      - destruct limit as [l|]; [|reflexivity]. rewrite (Hf []). now rewrite firstn_nil.
      - destruct limit as [l|]; [|reflexivity]. apply Hf. }
    rewrite C. destruct (a =? 10)%Z.
    + intros [= <- <-]. split; [eauto|]. cbn [length]. auto.
    + intros A. destruct (IH _ _ _ _ _ G1 A) as (G2 & X & P & Q). rewrite app_length in X, P. cbn [length] in X, P.
      replace (length line + 1) with (S (length line)) in X, P by lia.
      split; [assumption|]. split; [rewrite X, <- app_assoc; reflexivity|]. cbn [length]. split; [lia|congruence].
Qed.
Theorem readline_good cl input limit fuel s c x s' : good cl input s c -> readline fuel limit s = Some (x, s') ->
  (exists c', good cl input s' c') /\ x = cut_line limit (skipn (pos s) (body cl input)) /\ pos s' = pos s + length x /\ buf s' = buf s.
Proof.
  intros G A. destruct (readline_from_good cl input limit fuel [] s c x s' G A) as (G' & X & P & Q). cbn [app length] in X, P.
  assert (less limit 0 = limit) as E by (destruct limit; cbn [less]; rewrite ?Nat.sub_0_r; reflexivity). rewrite E in X, P. subst x. auto.
Qed.
Lemma readline_ends cl input limit : forall fuel line s c, good cl input s c -> length (body cl input) - pos s < fuel ->
  exists r, readline_from fuel limit line s = Some r.
Proof.
  induction fuel as [|f IH]; intros line s c G L; [lia|]. cbn [readline_from].
  destruct (match limit with None => true | Some l => length line <? l end); [|eauto].
  destruct (read 1 s) as [b s1] eqn:R. apply (read_good cl input s c) in R; [|assumption]. destruct R as (c1 & G1 & V).
  destruct (one_byte _ _ _ _ _ V) as [-> |[a ->]]; [eauto|]. destruct (a =? 10)%Z; [eauto|].
  apply (IH _ _ c1 G1). pose proof (pos_le _ _ _ _ G1). destruct V as (_ & _ & V3 & _). cbn [length] in V3. lia.
Qed.
Theorem readlines_never fuel lf total s : readlines fuel lf None total s = None.
Proof.
  revert total s. induction fuel as [|f IH]; intros total s; cbn [readlines]; [reflexivity|].
  destruct (readline lf None s) as [[[|a x] s1]|]; [apply IH| |reflexivity]. now rewrite IH.
Qed.
Lemma first_line_pre t : exists r, t = first_line t ++ r.
Proof.
  induction t as [|a t [r IH]]; cbn [first_line]; [exists []; reflexivity|].
  destruct (a =? 10)%Z; [exists t; reflexivity|exists r; cbn [app]; now rewrite <- IH].
Qed.
Lemma first_line_nil t : first_line t = [] -> t = [].
Proof. destruct t as [|a t]; [reflexivity|]. cbn [first_line]. destruct (a =? 10)%Z; discriminate. Qed.
Lemma line_rest p t : skipn (p + length (first_line (skipn p t))) t = skipn (length (first_line (skipn p t))) (skipn p t).
Proof.
  destruct (first_line_pre (skipn p t)) as [r Hr]. rewrite (skipn_more t (first_line (skipn p t)) r p Hr).
  rewrite Hr at 2. now rewrite skipn_len_app.
Qed.
Theorem readlines_good cl input h lf : forall fuel total s c l s', good cl input s c ->
  readlines fuel lf (Some h) total s = Some (l, s') ->
  begins (skipn (pos s) (body cl input)) l /\ h < total + length (concat l) /\
  (l <> [] /\ (total <= h -> total + length (concat (removelast l)) <= h)).
Proof.
  induction fuel as [|f IH]; intros total s c l s' G; cbn [readlines]; [discriminate|].
  destruct (readline lf None s) as [[x s1]|] eqn:R; [|discriminate].
  destruct (readline_good _ _ _ _ _ _ _ _ G R) as ((c1 & G1) & X & P & _). cbn [cut_line] in X.
  destruct x as [|a x].
  - cbn [length] in P. rewrite Nat.add_0_r in P. rewrite <- P. apply (IH total s1 c1 l s' G1).
  - set (y := a :: x) in *.
    assert (skipn (pos s) (body cl input) <> []) as Ne by (intros Z; rewrite Z in X; discriminate).
    assert (skipn (pos s1) (body cl input) = skipn (length y) (skipn (pos s) (body cl input))) as Nx by (rewrite P, X; apply line_rest).
    cbv zeta. destruct (h <? total + length y) eqn:E; [apply Nat.ltb_lt in E|apply Nat.ltb_ge in E].
    + intros [= <- <-]. rewrite X at 1. split; [constructor; [assumption|constructor]|]. cbn [concat removelast]. rewrite app_nil_r.
      split; [lia|]. split; [discriminate|]. cbn [length]. lia.
    + destruct (readlines f lf (Some h) (total + length y) s1) as [[l' s2]|] eqn:A; [|discriminate]. intros [= <- <-].
      destruct (IH _ _ _ _ _ G1 A) as (B & H1 & H2 & H3). rewrite Nx in B. rewrite X in B.
      split; [rewrite X; now constructor|]. cbn [concat]. rewrite app_length. split; [lia|]. split; [discriminate|]. intros _.
      destruct l' as [|z l']; [contradiction|]. change (removelast (y :: z :: l')) with (y :: removelast (z :: l')).
      cbn [concat]. rewrite app_length. specialize (H3 E). lia.
Qed.
Theorem readlines_ends cl input h lf : forall fuel total s c, good cl input s c ->
  length (body cl input) - pos s < lf -> length (body cl input) - pos s <= fuel -> h < total + (length (body cl input) - pos s) -> total <= h ->
  exists r, readlines fuel lf (Some h) total s = Some r.
Proof.
  induction fuel as [|f IH]; intros total s c G Lf L H T; [lia|]. cbn [readlines].
  destruct (readline_ends cl input None lf [] s c G Lf) as [[x s1] R]. change (readline lf None s = Some (x, s1)) in R. rewrite R.
  destruct (readline_good _ _ _ _ _ _ _ _ G R) as ((c1 & G1) & X & P & _). cbn [cut_line] in X.
  destruct x as [|a x].
  - symmetry in X. apply first_line_nil in X. apply (f_equal (@length Z)) in X. rewrite skipn_length in X. cbn in X. lia.
  - set (y := a :: x) in *. cbv zeta. destruct (h <? total + length y) eqn:E; [eauto|apply Nat.ltb_ge in E].
    assert (1 <= length y) by (unfold y; cbn; lia). pose proof (pos_le _ _ _ _ G1).
    destruct (IH (total + length y) s1 c1 G1) as [[l s2] ->]; [lia|lia|lia|lia|eauto].
Qed.

(** ** Seeking *)
Lemma read_buf n s : buf (snd (read n s)) = buf s.
Proof.
  assert (forall m t, buf (snd (raw_read m t)) = buf t) as A by reflexivity.
  assert (forall m t, buf (snd (from_stream m t)) = buf t) as B.
  { intros m t. unfold from_stream. destruct ((0 <? m) && live t); [|reflexivity]. cbv zeta.
    match goal with |- context [raw_read ?k t] => specialize (A k t); destruct (raw_read k t) as [d t1] end. destruct d; exact A. }
  unfold read. destruct ((0 <? n) && (pos s <? length (buf s))); [|apply B]. cbv zeta.
  match goal with |- context [from_stream ?k ?t] => specialize (B k t); destruct (from_stream k t) as [d t1] end. exact B.
Qed.
Lemma discard_buf block p : forall fuel s, buf (discard fuel block p s) = buf s.
Proof.
  induction fuel as [|f IH]; intros s; cbn [discard]; [reflexivity|]. destruct (pos s <? p); [|reflexivity].
  pose proof (read_buf (Nat.min (p - pos s) block) s) as B. destruct (read (Nat.min (p - pos s) block) s) as [d s1]. cbn [snd] in B.
  destruct d; [exact B|]. rewrite IH. exact B.
Qed.
Theorem seek_good cl input block w o s c s' : good cl input s c -> seek block w o s = Some s' -> pos s' <= length (buf s') ->
  good cl input s' (buf s').
Proof.
  intros G. unfold seek. destruct (length (buf s) <? pos s) eqn:E; [discriminate|]. apply Nat.ltb_ge in E.
  destruct (match w, ilen s with SeekSet, _ => _ | SeekCur, _ => _ | SeekEnd, None => _ | SeekEnd, Some l => _ end) as [p|]; [|discriminate].
  destruct (p <? 0)%Z; [discriminate|]. cbv zeta. destruct G as [G1 G2 G3 G4 G5 G6]. destruct (G4 E) as [B ->].
  destruct (Z.to_nat p =? pos s) eqn:Ep.
  - intros [= <-] _. constructor; auto.
  - destruct (Z.to_nat p <=? length (buf s)) eqn:Eb; [apply Nat.leb_le in Eb|apply Nat.leb_gt in Eb].
    + intros [= <-] _. constructor; cbn [with_pos ilen src pos bpos buf live]; auto. lia.
    + intros [= <-] P. cbn [with_pos pos buf] in P. rewrite discard_buf in P. lia.
Qed.
Theorem reached_good k cl input reads block s : 0 < block -> reached k cl input reads block s -> exists c, good cl input s c.
Proof.
  intros B. induction 1 as [|s n _ [c G]|s f d s' _ [c G] A|s f l d s' _ [c G] A|s w o s' _ [c G] A L].
  - eexists. apply open_good.
  - destruct (read n s) as [d s'] eqn:R. destruct (read_good _ _ _ _ _ _ _ G R) as (c' & G' & _). eauto.
  - now apply (readall_good cl input block B f s c d s').
  - now apply (readline_good cl input l f s c d s').
  - eexists. eapply seek_good; eassumption.
Qed.
