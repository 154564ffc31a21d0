(** The condition of a skip token and the pages of a SQL collection. *)
From Coq Require Import Lia Zify Permutation Sorted.
From Verif Require Import Py Iso HttpCore HttpSpec HttpProofs3 OdPageSpec SqlPage SqlPageSpec.
Open Scope Z_scope.
Open Scope list_scope.

Section Sql.
Context {R V : Type}.
Variable vals : R -> list (option V).
Variable vcmp : V -> V -> comparison.
Variable nulls_first : bool.
Hypothesis P : preorder vcmp.
Hypothesis Anti : forall a b, vcmp a b = Eq -> a = b.
Notation lex := (lex vcmp nulls_first).
Notation precedes := (precedes vcmp).
Notation holds := (holds vals vcmp).

(** ** The text of the condition *)
Fixpoint body (i : nat) (names : list bool) (tok : list (option V)) : list (@token V) :=
  match names, tok with
  | desc :: names', v :: tok' =>
      [TOpen; TCmp i (if desc then Lt else Gt) v] ++
      match names' with
      | [] => [TClose]
      | _ => [TOr; TOpen; TCmp i Eq v; TAnd] ++ body (S i) names' tok' ++ [TClose; TClose]
      end
  | _, _ => []
  end.
Fixpoint key_cond (i : nat) (names : list bool) (tok : list (option V)) : @cond V :=
  match names, tok with
  | desc :: names', v :: tok' =>
      let c := CCmp i (if desc then Lt else Gt) v in
      match names' with
      | [] => c
      | _ => COr c (CAnd (CCmp i Eq v) (key_cond (S i) names' tok'))
      end
  | _, _ => CCmp 0 Eq None
  end.
Lemma skip_loop_body names : forall i tok ket, names <> [] -> length tok = length names ->
  skip_loop i names tok ket = Ok (body i names tok ++ repeat TClose ket).
Proof.
  induction names as [|d names IH]; intros i tok ket Hn Hl; [congruence|]. destruct tok as [|v tok]; [discriminate|].
  cbn [skip_loop body]. destruct names as [|d' names]; [reflexivity|].
  rewrite IH by (discriminate || (cbn in *; lia)). cbn [bind]. rewrite <- !app_assoc. reflexivity.
Qed.
Lemma one_cmp f i op v (ts : list (@token V)) : parse_one (S f) (TCmp i op v :: ts) = Some (CCmp i op v, ts).
Proof. reflexivity. Qed.
Lemma one_paren f a (ts r : list (@token V)) : parse_or f ts = Some (a, TClose :: r) -> parse_one (S f) (TOpen :: ts) = Some (a, r).
Proof. intros H. transitivity (match parse_or f ts with Some (a, TClose :: r) => Some (a, r) | _ => None end); [reflexivity|]. rewrite H. reflexivity. Qed.
Lemma and_single f a (ts r : list (@token V)) : parse_one f ts = Some (a, r) -> match r with TAnd :: _ => False | _ => True end ->
  parse_and (S f) ts = Some (a, r).
Proof. intros H N. 
  transitivity (match parse_one f ts with Some (a, TAnd :: ts') => match parse_and f ts' with Some (b, r) => Some (CAnd a b, r) | None => None end | o => o end); [reflexivity|]. rewrite H. destruct r as [|[] r]; tauto || reflexivity. Qed.
Lemma and_more f a b (ts ts' r : list (@token V)) : parse_one f ts = Some (a, TAnd :: ts') -> parse_and f ts' = Some (b, r) ->
  parse_and (S f) ts = Some (CAnd a b, r).
Proof. intros H N. 
  transitivity (match parse_one f ts with Some (a, TAnd :: ts') => match parse_and f ts' with Some (b, r) => Some (CAnd a b, r) | None => None end | o => o end); [reflexivity|]. rewrite H, N. reflexivity. Qed.
Lemma or_single f a (ts r : list (@token V)) : parse_and f ts = Some (a, r) -> match r with TOr :: _ => False | _ => True end ->
  parse_or (S f) ts = Some (a, r).
Proof. intros H N. 
  transitivity (match parse_and f ts with Some (a, TOr :: ts') => match parse_or f ts' with Some (b, r) => Some (COr a b, r) | None => None end | o => o end); [reflexivity|]. rewrite H. destruct r as [|[] r]; tauto || reflexivity. Qed.
Lemma or_more f a b (ts ts' r : list (@token V)) : parse_and f ts = Some (a, TOr :: ts') -> parse_or f ts' = Some (b, r) ->
  parse_or (S f) ts = Some (COr a b, r).
Proof. intros H N. 
  transitivity (match parse_and f ts with Some (a, TOr :: ts') => match parse_or f ts' with Some (b, r) => Some (COr a b, r) | None => None end | o => o end); [reflexivity|]. rewrite H, N. reflexivity. Qed.
Lemma parse_body names : forall i tok f rest, names <> [] -> length tok = length names ->
  parse_one (8 * length names + S (S (S (S f)))) (body i names tok ++ rest) = Some (key_cond i names tok, rest).
Proof.
  induction names as [|d names IH]; intros i tok f rest Hn Hl; [congruence|]. destruct tok as [|v tok]; [discriminate|].
  cbn [length]. replace (8 * S (length names) + S (S (S (S f))))%nat
    with (S (S (S (S (S (S (S (S (8 * length names + S (S (S (S f)))))))))))) by lia.
  destruct names as [|d' names]; [reflexivity|]. specialize (IH (S i) tok).
  change (body i (d :: d' :: names) (v :: tok)) with
    ([TOpen; TCmp i (if d then Lt else Gt) v; TOr; TOpen; TCmp i Eq v; TAnd] ++ body (S i) (d' :: names) tok ++ [TClose; TClose]).
  change (key_cond i (d :: d' :: names) (v :: tok)) with
    (COr (CCmp i (if d then Lt else Gt) v) (CAnd (CCmp i Eq v) (key_cond (S i) (d' :: names) tok))).
  rewrite <- !app_assoc. cbn [app]. generalize dependent (body (S i) (d' :: names) tok). generalize (key_cond (S i) (d' :: names) tok).
  intros c bd IH. assert (IH' := IH f (TClose :: TClose :: rest) ltac:(discriminate) ltac:(cbn in *; lia)). clear IH.
  remember (8 * length (d' :: names) + S (S (S (S f))))%nat as g eqn:Eg.
  apply one_paren. eapply or_more; [apply and_single; [apply one_cmp|exact I]|].
  apply or_single; [|exact I]. apply and_single; [|exact I]. apply one_paren.
  apply or_single; [|exact I]. eapply and_more; [apply one_cmp|]. apply and_single; [exact IH'|exact I].
Qed.
Lemma parse_clause names tok : names <> [] -> length tok = length names ->
  exists ts, WhereSkiptokenClause names tok = Ok ts /\ parse ts = Some (key_cond 0 names tok).
Proof.
  intros Hn Hl. exists (body 0 names tok). unfold WhereSkiptokenClause. rewrite skip_loop_body by assumption. cbn [repeat]. rewrite app_nil_r.
  split; [reflexivity|]. unfold parse.
  assert (L : forall names i tok, names <> [] -> length tok = length names -> (8 * length names <= length (body i names tok) + 5)%nat).
  { clear. induction names as [|d names IH]; intros i tok Hn Hl; [congruence|]. destruct tok as [|v tok]; [discriminate|].
    destruct names as [|d' names]; [cbn; lia|]. specialize (IH (S i) tok ltac:(discriminate) ltac:(cbn in *; lia)).
    change (body i (d :: d' :: names) (v :: tok)) with
      ([TOpen; TCmp i (if d then Lt else Gt) v; TOr; TOpen; TCmp i Eq v; TAnd] ++ body (S i) (d' :: names) tok ++ [TClose; TClose]).
    rewrite !app_length. cbn [length] in *. lia. }
  specialize (L names 0%nat tok Hn Hl).
  assert (L3 : (3 <= length (body 0 names tok))%nat).
  { destruct names as [|d names]; [congruence|]. destruct tok as [|v tok]; [discriminate|]. cbn [body]. destruct names; cbn [app length]; lia. }
  remember (S (8 * length (body 0 names tok)))%nat as F eqn:EF.
  assert (exists f, F = S (S (8 * length names + S (S (S (S f)))))) as [f ->].
  { exists (F - (8 * length names + 6))%nat. lia. }
  pose proof (parse_body names 0 tok f [] Hn Hl) as X. rewrite app_nil_r in X.
  rewrite (or_single _ _ _ _ (and_single _ _ _ _ X I) I). reflexivity.
Qed.

(** ** Its meaning *)
Lemma same_gt x y d : same_comparison (vcmp x y) (if d : bool then Lt else Gt) = true <-> vcmp y x = (if d then Gt else Lt).
Proof. rewrite (pre_opp vcmp P x y). destruct (vcmp x y), d; cbn; intuition congruence. Qed.
Lemma same_eq x y : same_comparison (vcmp x y) Eq = true <-> y = x.
Proof.
  split; [|intros ->; rewrite (pre_refl vcmp P); reflexivity]. destruct (vcmp x y) eqn:E; cbn; try discriminate. intros _. symmetry. now apply Anti.
Qed.
Lemma key_cond_meaning names r : forall i pre suf tok, names <> [] -> vals r = pre ++ suf -> length pre = i ->
  length suf = length names -> length tok = length names -> ~ In None suf -> ~ In None tok ->
  exists b, holds (key_cond i names tok) r = Some b /\ (b = true <-> precedes names tok suf).
Proof.
  induction names as [|d names IH]; intros i pre suf tok Hn Hv Hi Hs Ht Ns Nt; [congruence|].
  destruct tok as [|v tok]; [discriminate|]. destruct suf as [|x suf]; [discriminate|].
  destruct v as [v|]; [|exfalso; apply Nt; now left]. destruct x as [x|]; [|exfalso; apply Ns; now left].
  assert (Hx : nth i (vals r) None = Some x) by (rewrite Hv, <- Hi, nth_middle; reflexivity).
  cbn [key_cond SqlPageSpec.precedes]. destruct names as [|d' names].
  - exists (same_comparison (vcmp x v) (if d then Lt else Gt)). cbn [SqlPageSpec.holds]. rewrite Hx. split; [reflexivity|].
    rewrite same_gt. cbn [SqlPageSpec.precedes]. tauto.
  - destruct (IH (S i) (pre ++ [Some x]) suf tok) as (b & Hb & Bb);
      [discriminate|rewrite Hv, <- app_assoc; reflexivity|rewrite app_length; cbn; lia|cbn in *; lia|cbn in *; lia|
       intros H; apply Ns; now right|intros H; apply Nt; now right|].
    exists (same_comparison (vcmp x v) (if d then Lt else Gt) || (same_comparison (vcmp x v) Eq && b)).
    cbn [SqlPageSpec.holds]. rewrite Hx, Hb. split.
    + destruct (same_comparison (vcmp x v) (if d then Lt else Gt)), (same_comparison (vcmp x v) Eq), b; reflexivity.
    + rewrite orb_true_iff, andb_true_iff, same_gt, same_eq, Bb. reflexivity.
Qed.

(** ** The order *)
Lemma ncmp_preorder : preorder (ncmp vcmp nulls_first).
Proof.
  repeat split.
  - intros [a|]; [apply P|reflexivity].
  - intros [a|] [b|]; cbn; [apply P| | |reflexivity]; destruct nulls_first; reflexivity.
  - intros [a|] [b|] [c|]; cbn; destruct nulls_first; try easy; apply P.
Qed.
Lemma lex_preorder dirs : preorder (lex dirs).
Proof.
  induction dirs as [|d dirs IH]; [repeat split; easy|].
  apply (preorder_ext (fun a b => thenc (if d then ncmp vcmp nulls_first (hd None b) (hd None a) else ncmp vcmp nulls_first (hd None a) (hd None b))
                                         (lex dirs (tl a) (tl b)))).
  { intros a b. cbn [SqlPageSpec.lex]. unfold thenc. destruct (if d then _ else _); reflexivity. }
  apply (then_preorder (fun a b => if d then ncmp vcmp nulls_first (hd None b) (hd None a) else ncmp vcmp nulls_first (hd None a) (hd None b))
                       (fun a b => lex dirs (tl a) (tl b))); [|apply (map_preorder (@tl (option V))), IH].
  destruct d.
  - apply (flip_preorder (fun a b => ncmp vcmp nulls_first (hd None a) (hd None b))), (map_preorder (hd None)), ncmp_preorder.
  - apply (map_preorder (hd None)), ncmp_preorder.
Qed.
Lemma lex_precedes dirs : forall a b, length a = length dirs -> length b = length dirs -> ~ In None a -> ~ In None b ->
  lex dirs a b = Lt <-> precedes dirs a b.
Proof.
  induction dirs as [|d dirs IH]; intros a b La Lb Na Nb; [cbn; split; [discriminate|tauto]|].
  destruct a as [|[x|] a]; [discriminate| |exfalso; apply Na; now left]. destruct b as [|[y|] b]; [discriminate| |exfalso; apply Nb; now left].
  cbn [SqlPageSpec.lex SqlPageSpec.precedes hd tl ncmp]. rewrite <- IH; [|cbn in *; lia|cbn in *; lia|intros H; apply Na; now right|intros H; apply Nb; now right].
  destruct d.
  - rewrite (pre_opp vcmp P x y). destruct (vcmp x y) eqn:E; cbn.
    + apply Anti in E. subst. intuition congruence.
    + split; [congruence|]. intros [H|[H _]]; [congruence|]. subst. rewrite (pre_refl vcmp P) in E. discriminate.
    + intuition congruence.
  - destruct (vcmp x y) eqn:E.
    + apply Anti in E. subst. intuition congruence.
    + intuition congruence.
    + split; [congruence|]. intros [H|[H _]]; [congruence|]. subst. rewrite (pre_refl vcmp P) in E. discriminate.
Qed.
Lemma lex_eq dirs : forall a b, length a = length dirs -> length b = length dirs -> lex dirs a b = Eq -> a = b.
Proof.
  induction dirs as [|d dirs IH]; intros a b La Lb H.
  - destruct a, b; (discriminate || reflexivity).
  - destruct a as [|x a]; [discriminate|]. destruct b as [|y b]; [discriminate|]. cbn [SqlPageSpec.lex hd tl] in H.
    assert (N : forall u v, ncmp vcmp nulls_first u v = Eq -> u = v).
    { intros [u|] [v|]; cbn; [intros X; f_equal; now apply Anti| | |reflexivity]; destruct nulls_first; discriminate. }
    destruct d.
    + destruct (ncmp vcmp nulls_first y x) eqn:E; try discriminate. apply N in E. subst. f_equal. apply IH; (cbn in *; lia) || exact H.
    + destruct (ncmp vcmp nulls_first x y) eqn:E; try discriminate. apply N in E. subst. f_equal. apply IH; (cbn in *; lia) || exact H.
Qed.
End Sql.
