(** Proofs about Rtf.v. *)
From Verif Require Import Py Dec XmlUtils Rtf RtfSpec.

Definition inv (p : parser) : Prop :=
  if popen p then exists a b, tokens p = a ++ start_tag (lit "p") :: b /\ nested a /\ nested b
  else nested (tokens p).

Lemma nested_around tags l : nested l -> nested (map start_tag tags ++ l ++ map end_tag (rev tags)).
Proof.
  revert l. induction tags as [|t tags IH]; intros l H; cbn [map rev app]; [rewrite app_nil_r; exact H|].
  rewrite map_app. cbn [map]. rewrite !app_assoc, <- (app_assoc _ l). 
  apply (ns_elem t []). apply IH, H.
Qed.

Lemma inv_emit p l q : nested l -> inv p -> tokens q = tokens p ++ l -> popen q = popen p -> inv q.
Proof.
  unfold inv. intros Hl H Ht ->. destruct (popen p).
  - destruct H as (a & b & E & Ha & Hb). exists a, (b ++ l). split; [|split; [exact Ha|apply ns_app; assumption]].
    rewrite Ht, E, <- app_assoc. reflexivity.
  - rewrite Ht. apply ns_app; assumption.
Qed.
Lemma inv_same p q : inv p -> tokens q = tokens p -> popen q = popen p -> inv q.
Proof. intros H E1 E2. eapply (inv_emit p []); [constructor|exact H|rewrite app_nil_r; exact E1|exact E2]. Qed.

Lemma inv_EndString p : inv p -> inv (EndString p).
Proof.
  intros H. unfold EndString. destruct (chars p) as [|c cs] eqn:E; [exact H|].
  eapply inv_emit; [|exact H|reflexivity|reflexivity]. apply nested_around. constructor.
Qed.
Lemma inv_StateChanged p : inv p -> inv (StateChanged p).
Proof.
  intros H. unfold StateChanged. destruct (tags_eqb _ _); [exact H|].
  eapply inv_same; [apply inv_EndString, H|reflexivity|reflexivity].
Qed.

Ltac keep := (eapply inv_same; [eassumption|reflexivity|reflexivity]).
Ltac in_res H := injection H as <-.

Lemma inv_Handle name param p q : inv p -> Handle name param p = Ok q -> inv q.
Proof.
  intros I H. unfold Handle in H.
  repeat match type of H with (if ?b then _ else _) = _ => destruct b end;
    try (in_res H); try keep; try (apply inv_StateChanged; keep).
  - destruct param; [|discriminate]. destruct (unichr z); [|discriminate]. cbn [bind] in H.
    destruct (uc (state p)); [|discriminate]. in_res H. keep.
  - pose proof (inv_EndString p I) as J. unfold inv in *. cbn [popen set_popen emit tokens].
    destruct (popen (EndString p)).
    + destruct J as (a & b & E & Ha & Hb).
      exists (a ++ start_tag (lit "p") :: b ++ [end_tag (lit "p")]), []. rewrite E. split; [|split].
      * rewrite <- !app_assoc. cbn [app]. rewrite <- app_assoc. reflexivity.
      * apply ns_app; [exact Ha|]. apply ns_elem, Hb.
      * constructor.
    + exists (tokens (EndString p)), []. split; [reflexivity|]. split; [exact J|constructor].
  - eapply inv_emit; [|apply inv_EndString, I|reflexivity|reflexivity]. constructor.
  - discriminate H.
Qed.

Lemma inv_step input c p q : inv p -> step input c p = Ok q -> inv q.
Proof.
  intros I H. unfold step in H. destruct (c =? 92).
  - destruct (cur _ _); [|discriminate]. destruct (is_letter z); [|in_res H; keep].
    destruct (ParseControlWord _ _) as [[[name param] k]|]; [|discriminate]. cbn [bind] in H.
    eapply inv_Handle; [|exact H]. keep.
  - destruct (c =? 123); [in_res H; keep|]. destruct (c =? 125).
    + destruct (stack _); [discriminate|]. in_res H. apply inv_StateChanged. keep.
    + in_res H. destruct (ignoreGroup _); keep.
Qed.

Lemma inv_loop fuel input : forall p q, inv p -> loop fuel input p = Ok q -> inv q.
Proof.
  induction fuel as [|f IH]; intros p q I H; cbn [loop] in H; [discriminate|].
  destruct (cur _ _); [|in_res H; exact I]. destruct (step _ _ _) as [p'|] eqn:E; [|discriminate].
  cbn [bind] in H. eapply IH; [|exact H]. eapply inv_step; eassumption.
Qed.

Lemma tokenize_nested fuel input l : RtfTokenize fuel input = Ok l -> nested l.
Proof.
  unfold RtfTokenize. destruct (loop _ _ _) as [p|] eqn:E; [|discriminate]. cbn [bind]. intros [= <-].
  assert (inv (EndString p)) as I.
  { apply inv_EndString. eapply inv_loop; [|exact E]. constructor. }
  unfold inv in I. destruct (popen (EndString p)); [|rewrite app_nil_r; exact I].
  destruct I as (a & b & -> & Ha & Hb). rewrite <- app_assoc. apply ns_app; [exact Ha|].
  cbn [app]. apply ns_elem, Hb.
Qed.

(** *** Groups *)
Lemma stack_EndString p : stack (EndString p) = stack p /\ state (EndString p) = state p /\ pos (EndString p) = pos p.
Proof. unfold EndString. destruct (chars p); repeat split. Qed.
Lemma stack_StateChanged p : stack (StateChanged p) = stack p /\ state (StateChanged p) = state p /\ pos (StateChanged p) = pos p.
Proof. unfold StateChanged. destruct (tags_eqb _ _); [repeat split|apply stack_EndString]. Qed.
Lemma tags_eqb_eq a : forall b, tags_eqb a b = true -> a = b.
Proof.
  induction a as [|x a IH]; intros [|y b] H; cbn [tags_eqb] in H; try discriminate; [reflexivity|].
  apply andb_true_iff in H as [H1 H2]. apply str_eqb_eq in H1 as ->. rewrite (IH _ H2). reflexivity.
Qed.
Lemma formatTags_StateChanged p : formatTags (StateChanged p) = GetFormatTags (state p).
Proof.
  unfold StateChanged. destruct (tags_eqb _ _) eqn:E; [|reflexivity]. apply tags_eqb_eq in E. congruence.
Qed.

Lemma stack_Handle name param p q : Handle name param p = Ok q -> stack q = stack p.
Proof.
  intros H. unfold Handle in H.
  repeat match type of H with (if ?b then _ else _) = _ => destruct b end;
    try (in_res H); try reflexivity; try (rewrite (proj1 (stack_StateChanged _)); reflexivity).
  - destruct param; [|discriminate]. destruct (unichr z); [|discriminate]. cbn [bind] in H.
    destruct (uc (state p)); [|discriminate]. in_res H. reflexivity.
  - apply (proj1 (stack_EndString p)).
  - apply (proj1 (stack_EndString p)).
  - discriminate H.
Qed.

Lemma step_stack input c p q : step input c p = Ok q ->
  (c = 123 /\ stack q = state p :: stack p) \/
  (c = 125 /\ exists s k, stack p = s :: k /\ stack q = k /\ state q = s /\ formatTags q = GetFormatTags s) \/
  (c <> 123 /\ c <> 125 /\ stack q = stack p).
Proof.
  intros H. unfold step in H. destruct (c =? 92) eqn:E1.
  - right. right. split; [lia|]. split; [lia|].
    destruct (cur _ _); [|discriminate]. destruct (is_letter z); [|in_res H; reflexivity].
    destruct (ParseControlWord _ _) as [[[name param] k]|]; [|discriminate]. cbn [bind] in H.
    apply stack_Handle in H. exact H.
  - destruct (c =? 123) eqn:E2.
    + in_res H. left. split; [lia|reflexivity].
    + destruct (c =? 125) eqn:E3.
      * right. left. split; [lia|]. change (stack (move 1 p)) with (stack p) in H.
        destruct (stack p) as [|s k]; [discriminate|]. in_res H. exists s, k. split; [reflexivity|].
        rewrite (proj1 (stack_StateChanged _)), (proj1 (proj2 (stack_StateChanged _))), formatTags_StateChanged.
        repeat split.
      * right. right. split; [lia|]. split; [lia|]. in_res H. destruct (ignoreGroup _); reflexivity.
Qed.

(** The part of the stack that is at most n deep cannot change while n groups are open *)
Lemma steps_stack input n p q : steps input n p q ->
  forall a k, stack p = a ++ k -> length k = n -> exists b, stack q = b ++ k.
Proof.
  induction 1 as [p Hp|p c r q Hp Hc Hs Hq IH]; intros a k E L; [exists a; exact E|].
  assert ((n <= length (stack r))%nat) as Hr by (destruct Hq; assumption).
  destruct (step_stack _ _ _ _ Hs) as [(-> & S)|[(-> & s & k' & S1 & S2 & _)|(_ & _ & S)]].
  - apply (IH (state p :: a) k); [rewrite S, E; reflexivity|exact L].
  - rewrite E in S1. destruct a as [|x a].
    + exfalso. cbn [app] in S1. subst k. cbn [length] in L. rewrite S2 in Hr. lia.
    + cbn [app] in S1. injection S1 as -> <-. apply (IH a k); [exact S2|exact L].
  - apply (IH a k); [rewrite S; exact E|exact L].
Qed.

Lemma group_restores input p q r z :
  cur input (pos p) = Some 123 -> step input 123 p = Ok q ->
  steps input (S (length (stack p))) q r -> length (stack r) = S (length (stack p)) ->
  step input 125 r = Ok z ->
  state z = state p /\ stack z = stack p /\ formatTags z = GetFormatTags (state p).
Proof.
  intros _ H1 H2 L H3. destruct (step_stack _ _ _ _ H1) as [(_ & S)|[(E & _)|(E & _)]]; try (exfalso; lia).
  destruct (steps_stack _ _ _ _ H2 [] (state p :: stack p) S eq_refl) as [b E].
  assert (b = []) as ->.
  { destruct b; [reflexivity|]. exfalso. rewrite E, app_length in L. cbn [length] in L. lia. }
  destruct (step_stack _ _ _ _ H3) as [(E3 & _)|[(_ & s & k & E1 & E2 & E3 & E4)|(_ & E3 & _)]]; try (exfalso; lia).
  rewrite E in E1. cbn [app] in E1. injection E1 as <- <-. auto.
Qed.

(** *** Termination *)
Lemma cur_nonneg input q c : 0 <= q -> cur input q = Some c ->
  q < Z.of_nat (length input) /\ exists a b, input = a ++ c :: b /\ Z.of_nat (length a) = q.
Proof.
  intros H. unfold cur. replace (0 <=? q) with true by lia. intros E.
  pose proof (nth_error_split _ _ E) as (a & b & E1 & E2).
  assert (Z.to_nat q < length input)%nat by (apply nth_error_Some; congruence).
  split; [lia|]. exists a, b. split; [exact E1|]. lia.
Qed.

Lemma cur_range input q c : cur input q = Some c -> - Z.of_nat (length input) <= q < Z.of_nat (length input).
Proof.
  unfold cur. destruct (0 <=? q) eqn:E.
  - intros H. assert (Z.to_nat q < length input)%nat by (apply nth_error_Some; congruence). lia.
  - destruct (_ && _) eqn:F; [lia|discriminate].
Qed.

Lemma take_while_total f input : forall fuel q, Z.of_nat (length input) - q < Z.of_nat fuel \/ q < - Z.of_nat (length input) ->
  (0 < fuel)%nat -> exists w, take_while f fuel input q = Ok (w, q + Z.of_nat (length w)).
Proof.
  induction fuel as [|n IH]; intros q H Hf; [lia|]. cbn [take_while].
  destruct (cur input q) as [c|] eqn:E; [|exists []; f_equal; f_equal; cbn; lia].
  destruct (f c); [|exists []; f_equal; f_equal; cbn; lia].
  apply cur_range in E. destruct (IH (q + 1)) as [w ->]; [lia|lia|]. cbn [bind].
  exists (c :: w). cbn [length]. f_equal. f_equal. lia.
Qed.
Lemma take_run f input q : exists w, take_while f (run_fuel input) input q = Ok (w, q + Z.of_nat (length w)).
Proof. apply take_while_total; unfold run_fuel; lia. Qed.

Lemma skipn_len (a b : str) : skipn (length a) (a ++ b) = b.
Proof. induction a as [|x a IH]; [reflexivity|exact IH]. Qed.

(** What a run of characters is, from a position inside the input *)
Lemma take_while_skipn f input : forall fuel q w q', 0 <= q -> take_while f fuel input q = Ok (w, q') ->
  exists r, skipn (Z.to_nat q) input = w ++ r.
Proof.
  induction fuel as [|n IH]; intros q w q' Hq H; cbn [take_while] in H; [discriminate|].
  destruct (cur input q) as [c|] eqn:E; [|injection H as <- <-; eexists; reflexivity].
  destruct (f c); [|injection H as <- <-; eexists; reflexivity].
  destruct (take_while f n input (q + 1)) as [[w' k]|] eqn:T; [|discriminate]. cbn [bind] in H. injection H as <- <-.
  apply IH in T as [r R]; [|lia]. exists r. cbn [app]. rewrite <- R.
  destruct (cur_nonneg _ _ _ Hq E) as (_ & a & b & -> & L).
  replace (Z.to_nat q) with (length a) by lia.
  replace (Z.to_nat (q + 1)) with (length (a ++ [c])) by (rewrite app_length; cbn [length]; lia).
  rewrite skipn_len. change (c :: b = c :: skipn (length (a ++ [c])) (a ++ [c] ++ b)).
  rewrite app_assoc, skipn_len. reflexivity.
Qed.

Lemma parse_number_spec input q n q' : ParseNumber input q = Ok (n, q') ->
  q < q' /\ (n < 0 -> cur input q = Some 45).
Proof.
  unfold ParseNumber. destruct (cur input q) as [c|] eqn:E.
  - destruct (c =? 45) eqn:F.
    + destruct (take_run is_digit input (q + 1)) as [w ->]. cbn [bind]. destruct w as [|d w]; [discriminate|].
      intros [= <- <-]. split; [cbn [length]; lia|]. intros _. f_equal. lia.
    + destruct (take_while _ _ _ _) as [[w k]|] eqn:T; [|discriminate]. cbn [bind]. destruct w as [|d w]; [discriminate|].
      intros [= <- <-]. destruct (take_run is_digit input q) as [w' T']. rewrite T' in T. injection T as T1 T2. subst w'. rewrite <- T2 in *. clear T2.
      split; [cbn [length]; lia|]. intros N. exfalso.
      assert (Forall is_dec (d :: w)) as D.
      { clear - T'. revert q T'. generalize (run_fuel input) as fuel. generalize (d :: w) as l. intros l fuel.
        assert (forall q k, take_while is_digit fuel input q = Ok (l, k) -> Forall is_dec l) as G; [|intros; eapply G; eassumption].
        revert l. induction fuel as [|f IH]; intros l q k H; cbn [take_while] in H; [discriminate|].
        destruct (cur input q); [|injection H as <- _; constructor]. destruct (is_digit z) eqn:Z; [|injection H as <- _; constructor].
        destruct (take_while is_digit f input (q + 1)) as [[w' k']|] eqn:E; [|discriminate]. cbn [bind] in H. injection H as <- _.
        constructor; [unfold is_digit in Z; unfold is_dec; lia|]. eapply IH, E. }
      pose proof (dval_nonneg _ D) as D0. destruct (dval (d :: w)); lia.
  - destruct (take_run is_digit input q) as [w T]. rewrite T. cbn [bind]. destruct w as [|d w]; [discriminate|].
    exfalso. unfold run_fuel in T. cbn [take_while] in T. rewrite E in T. discriminate T.
Qed.

Lemma control_word_spec input q name param q' : 0 <= q -> ParseControlWord input q = Ok (name, param, q') ->
  q <= q' /\ forall n, param = Some n -> n < 0 -> exists r, skipn (Z.to_nat q) input = name ++ 45 :: r.
Proof.
  intros Hq. unfold ParseControlWord. destruct (take_run is_letter input q) as [w T]. rewrite T. cbn [bind].
  destruct (take_while_skipn _ _ _ _ _ _ Hq T) as [r R].
  destruct (cur input (q + Z.of_nat (length w))) as [c|] eqn:E.
  2:{ intros [= <- <- <-]. split; [lia|]. intros n N. discriminate N. }
  destruct (c =? 32). { intros [= <- <- <-]. split; [lia|]. intros n N. discriminate N. }
  destruct (is_digit c || (c =? 45)); [|intros [= <- <- <-]; split; [lia|]; intros n N; discriminate N].
  destruct (ParseNumber _ _) as [[n k]|] eqn:P; [|discriminate]. cbn [bind]. intros [= <- <- <-].
  destruct (parse_number_spec _ _ _ _ P) as [P1 P2]. split; [destruct (cur_is _ _ _); lia|].
  intros m [= <-] Hm. specialize (P2 Hm). rewrite P2 in E. injection E as <-.
  exists (tl r). rewrite R. f_equal.
  assert (0 <= q + Z.of_nat (length w)) as H0 by lia.
  destruct (cur_nonneg _ _ _ H0 P2) as (_ & a & b & Ein & L).
  assert (skipn (Z.to_nat (q + Z.of_nat (length w))) input = 45 :: b) as S1.
  { rewrite Ein. replace (Z.to_nat (q + Z.of_nat (length w))) with (length a) by lia.
    rewrite skipn_app, skipn_all, Nat.sub_diag. reflexivity. }
  assert (skipn (Z.to_nat (q + Z.of_nat (length w))) input = r) as S2.
  { replace (Z.to_nat (q + Z.of_nat (length w))) with (length w + Z.to_nat q)%nat by lia.
    assert (forall (l : str) i j, skipn (i + j) l = skipn i (skipn j l)) as SK.
    { induction l as [|x l IHl]; intros i j; [rewrite !skipn_nil; reflexivity|].
      destruct j; [rewrite Nat.add_0_r; reflexivity|]. rewrite Nat.add_succ_r. cbn [skipn]. apply IHl. }
    rewrite SK, R, skipn_app, skipn_all, Nat.sub_diag. reflexivity. }
  rewrite <- S2, S1. reflexivity.
Qed.

Definition uc_ok (s : rstate) : Prop := match uc s with Some k => 0 <= k | None => True end.

Lemma pos_Handle name param p q : uc_ok (state p) -> Handle name param p = Ok q -> pos p <= pos q.
Proof.
  intros U H. unfold Handle in H.
  repeat match type of H with (if ?b then _ else _) = _ => destruct b end;
    try (in_res H); try (cbn; lia); try (rewrite (proj2 (proj2 (stack_StateChanged _))); cbn; lia).
  - destruct param; [|discriminate]. destruct (unichr z); [|discriminate]. cbn [bind] in H.
    unfold uc_ok in U. destruct (uc (state p)); [|discriminate]. in_res H. cbn. lia.
  - cbn [pos set_popen emit]. rewrite (proj2 (proj2 (stack_EndString p))). lia.
  - cbn [pos emit]. rewrite (proj2 (proj2 (stack_EndString p))). lia.
  - discriminate H.
Qed.

Definition all_uc_ok (p : parser) : Prop := uc_ok (state p) /\ Forall uc_ok (stack p).

Lemma uc_Handle name param p q : uc_ok (state p) -> Handle name param p = Ok q ->
  uc_ok (state q) \/ (name = lit "uc" /\ exists n, param = Some n /\ n < 0).
Proof.
  intros U H. unfold Handle in H. destruct (str_eqb name (lit "uc")) eqn:E.
  - in_res H. destruct param as [n|]; [|left; exact I].
    destruct (Z_lt_le_dec n 0); [right|left; exact l]. split; [apply str_eqb_eq, E|]. exists n. auto.
  - left. repeat match type of H with (if ?b then _ else _) = _ => destruct b end;
      try (in_res H); try exact U; try (rewrite (proj1 (proj2 (stack_StateChanged _))); exact U).
    + destruct param; [|discriminate]. destruct (unichr z); [|discriminate]. cbn [bind] in H.
      destruct (uc (state p)) eqn:UE; [|discriminate]. in_res H. cbn. exact U.
    + cbn [state set_popen emit]. rewrite (proj1 (proj2 (stack_EndString p))). exact U.
    + cbn [state emit]. rewrite (proj1 (proj2 (stack_EndString p))). exact U.
    + discriminate H.
Qed.

Lemma step_progress input c p q : (forall a b, input <> a ++ lit "\uc-" ++ b) ->
  0 <= pos p -> cur input (pos p) = Some c -> all_uc_ok p -> step input c p = Ok q ->
  pos p < pos q /\ all_uc_ok q.
Proof.
  intros N Hp Hc [U1 U2] H. unfold step in H. destruct (c =? 92) eqn:E1.
  - assert (c = 92) as -> by lia.
    destruct (cur input (pos (move 1 p))) as [d|] eqn:D; [|discriminate]. destruct (is_letter d).
    2:{ in_res H. split; [cbn; lia|split; assumption]. }
    destruct (ParseControlWord _ _) as [[[name param] k]|] eqn:W; [|discriminate]. cbn [bind] in H.
    cbn [pos move] in W. destruct (control_word_spec input (pos p + 1) name param k ltac:(lia) W) as [W1 W2].
    pose proof (pos_Handle name param (set_pos k (move 1 p)) q U1 H) as P. cbn [pos set_pos] in P. split; [lia|].
    split.
    + destruct (uc_Handle name param (set_pos k (move 1 p)) q U1 H) as [G|(-> & n & -> & Hn)]; [exact G|]. exfalso.
      destruct (W2 n eq_refl Hn) as [r R]. destruct (cur_nonneg _ _ _ Hp Hc) as (_ & a & b & Ein & L).
      apply (N a r). rewrite Ein. f_equal. change (lit "\uc-") with (92 :: lit "uc" ++ [45]).
      rewrite Ein in R. replace (Z.to_nat (pos p + 1)) with (length (a ++ [92])) in R by (rewrite app_length; cbn; lia).
      change (a ++ 92 :: b) with (a ++ [92] ++ b) in R. rewrite app_assoc, skipn_app, skipn_all, Nat.sub_diag in R.
      cbn [app skipn] in R. rewrite R. reflexivity.
    + rewrite (stack_Handle _ _ _ _ H). exact U2.
  - destruct (c =? 123).
    + in_res H. split; [cbn; lia|]. split; [exact U1|]. cbn. constructor; assumption.
    + destruct (c =? 125).
      * change (stack (move 1 p)) with (stack p) in H. destruct (stack p) as [|s k]; [discriminate|]. in_res H.
        inversion_clear U2. split; [rewrite (proj2 (proj2 (stack_StateChanged _))); cbn; lia|].
        split; [rewrite (proj1 (proj2 (stack_StateChanged _)))|rewrite (proj1 (stack_StateChanged _))]; assumption.
      * in_res H. destruct (ignoreGroup _); (split; [cbn; lia|split; assumption]).
Qed.

Lemma step_not_fuel input c p : step input c p <> Err OutOfFuel.
Proof.
  unfold step. destruct (c =? 92).
  - destruct (cur _ _); [|discriminate]. destruct (is_letter z); [|discriminate].
    unfold ParseControlWord. destruct (take_run is_letter input (pos (move 1 p))) as [w ->]. cbn [bind].
    assert (forall name param p, Handle name param p <> Err OutOfFuel) as G.
    { intros name param p'. unfold Handle. repeat match goal with |- (if ?b then _ else _) <> _ => destruct b end; try discriminate.
      - destruct param as [n|]; [|discriminate]. unfold unichr. destruct (_ || _); [discriminate|]. destruct (_ || _); [discriminate|].
        cbn [bind]. destruct (uc _); discriminate.
 }
    destruct (cur input _) as [d|]; [|cbn [bind]; apply G]. destruct (d =? 32); [cbn [bind]; apply G|].
    destruct (is_digit d || (d =? 45)); [|cbn [bind]; apply G].
    destruct (ParseNumber _ _) as [[n k]|e] eqn:P; cbn [bind]; [apply G|].
    intros [= ->]. revert P. unfold ParseNumber. destruct (cur input _) as [d'|]; [destruct (d' =? 45)|];
      match goal with |- context [take_while ?f ?u ?i ?q] => destruct (take_run f i q) as [w' ->] end;
      cbn [bind]; destruct w'; discriminate.
  - destruct (c =? 123); [discriminate|]. destruct (c =? 125); [|discriminate]. destruct (stack _); discriminate.
Qed.

Lemma loop_terminates input : (forall a b, input <> a ++ lit "\uc-" ++ b) ->
  forall fuel p, 0 <= pos p -> all_uc_ok p -> Z.of_nat (length input) - pos p < Z.of_nat fuel -> (0 < fuel)%nat ->
  loop fuel input p <> Err OutOfFuel.
Proof.
  intros N. induction fuel as [|f IH]; intros p Hp U L F; [lia|]. cbn [loop].
  destruct (cur input (pos p)) as [c|] eqn:C; [|discriminate].
  destruct (step input c p) as [q|e] eqn:S; cbn [bind].
  - destruct (step_progress _ _ _ _ N Hp C U S) as [P U']. apply cur_range in C. apply IH; [lia|exact U'|lia|lia].
  - intros [= ->]. exact (step_not_fuel _ _ _ S).
Qed.

Lemma loop_more input : forall fuel p k, loop fuel input p <> Err OutOfFuel -> loop (fuel + k) input p = loop fuel input p.
Proof.
  induction fuel as [|f IH]; intros p k H; [exfalso; apply H; reflexivity|]. cbn [loop Nat.add] in *.
  destruct (cur input (pos p)); [|reflexivity]. destruct (step input z p); [|reflexivity]. cbn [bind] in *. apply IH, H.
Qed.

Lemma tokenize_terminates input fuel : (forall a b, input <> a ++ lit "\uc-" ++ b) -> (length input < fuel)%nat ->
  RtfTokenize fuel input <> Err OutOfFuel /\ RtfTokenize fuel input = RtfTokenize (S (length input)) input.
Proof.
  intros N F.
  assert (loop (S (length input)) input new_parser <> Err OutOfFuel) as T.
  { apply loop_terminates; [exact N|cbn; lia|split; [cbn; lia|constructor]|cbn [pos new_parser]; lia|lia]. }
  assert (loop fuel input new_parser = loop (S (length input)) input new_parser) as E.
  { replace fuel with (S (length input) + (fuel - S (length input)))%nat by lia. apply loop_more, T. }
  unfold RtfTokenize. rewrite E. split; [|reflexivity].
  destruct (loop _ input _) as [p|e]; cbn [bind]; [discriminate|]. intros [= ->]. apply T. reflexivity.
Qed.

(** A negative number of characters to skip makes the parser read the same control word again
    and again *)
Definition spin : str := lit "\uc-4\u65".
Lemma spin_forever : forall fuel p, pos p = 5 -> uc (state p) = Some (-4) -> ignoreGroup (state p) = false ->
  loop fuel spin p = Err OutOfFuel.
Proof.
  intros fuel p. revert p. induction fuel as [|f IH]; intros p Hp Hu Hi; [reflexivity|].
  cbn [loop]. rewrite Hp. change (cur spin 5) with (Some 92). unfold step. cbn [Z.eqb Pos.eqb].
  cbn [pos move]. rewrite Hp. change (cur spin (5 + 1)) with (Some 117). change (is_letter 117) with true.
  change (ParseControlWord spin (5 + 1)) with (Ok (lit "u", Some 65, 9)).
  cbv iota. cbn [bind]. unfold Handle. change (str_eqb (lit "u") (lit "uc")) with false. change (str_eqb (lit "u") (lit "u")) with true.
  cbv iota. cbn [state set_pos move]. rewrite Hi, Hu. change (unichr 65) with (Ok 65). cbn [bind]. apply IH; cbn; assumption || reflexivity.
Qed.
Lemma spin_tokenize fuel : RtfTokenize fuel spin = Err OutOfFuel.
Proof.
  unfold RtfTokenize. destruct fuel as [|f]; [reflexivity|].
  assert (loop (S f) spin new_parser = Err OutOfFuel) as ->; [|reflexivity].
  cbn [loop]. change (cur spin (pos new_parser)) with (Some 92).
  cbv iota.
  assert (exists p, step spin 92 new_parser = Ok p /\ pos p = 5 /\ uc (state p) = Some (-4) /\ ignoreGroup (state p) = false)
    as (p & -> & H1 & H2 & H3) by (eexists; split; [vm_compute; reflexivity|]; repeat split).
  cbn [bind]. apply spin_forever; assumption.
Qed.

(** *** Plain text *)
Definition plain_char (c : Z) : Prop := c <> 92 /\ c <> 123 /\ c <> 125.
Lemma loop_plain a t : Forall plain_char t -> forall n, loop (length t + S n) (a ++ t) (mkParser [] a [] new_rstate [] false (Z.of_nat (length a)))
  = Ok (mkParser [] (a ++ t) [] new_rstate [] false (Z.of_nat (length (a ++ t)))).
Proof.
  intros H n. revert a. induction H as [|c t (H1 & H2 & H3) Ht IH]; intros a.
  - rewrite app_nil_r. cbn [length Nat.add loop pos]. unfold cur. replace (0 <=? Z.of_nat (length a)) with true by lia.
    rewrite Nat2Z.id. rewrite (proj2 (nth_error_None a (length a))) by lia. reflexivity.
  - cbn [length Nat.add loop pos]. unfold cur. replace (0 <=? Z.of_nat (length a)) with true by lia.
    rewrite Nat2Z.id. rewrite nth_error_app2, Nat.sub_diag by lia. cbn [nth_error].
    unfold step. replace (c =? 92) with false by lia. replace (c =? 123) with false by lia. replace (c =? 125) with false by lia.
    cbn [state ignoreGroup new_rstate bind add_char move tokens chars formatTags stack popen pos].
    change (a ++ c :: t) with (a ++ [c] ++ t). rewrite app_assoc. rewrite <- IH. unfold move, add_char; cbn [tokens chars formatTags state stack popen pos]. replace (Z.of_nat (length a) + 1) with (Z.of_nat (length (a ++ [c]))) by (rewrite app_length; cbn [length]; lia). reflexivity.
Qed.
Lemma tokenize_plain t : Forall plain_char t -> forall n, (length t < n)%nat ->
  RtfTokenize n t = Ok (match t with [] => [] | _ => [Text t] end).
Proof.
  intros H n Hn. unfold RtfTokenize. replace n with (length t + S (n - length t - 1))%nat by lia.
  pose proof (loop_plain [] t H (n - length t - 1)) as L. cbn [app length] in L. change (Z.of_nat 0) with 0 in L.
  change (mkParser [] [] [] new_rstate [] false 0) with new_parser in L. rewrite L. cbn [bind].
  destruct t; reflexivity.
Qed.
