(** Headers: quality values, lists of items, ranges, methods. *)
From Coq Require Import Lia Zify Permutation Sorted.
From Verif Require Import Py Iso Dec XmlUtils Imscp ImscpProofs HttpCore HttpParams HttpHeaders HttpSpec
  HttpProofs HttpProofs2 HttpProofs3 HttpProofs4 HttpProofs5 HttpProofs6.
Open Scope Z_scope.

(** ** Quality values *)
Definition good_q (n : nat) : bool :=
  let q := Z.of_nat n in
  match ParseQualityValue [Some (q_str q)] with
  | Ok (Some q', []) => (q' =? q) && forallb tokb (q_str q) && negb (match q_str q with [] => true | _ => false end)
  | _ => false
  end.
Lemma good_qs : forallb good_q (seq 0 1001) = true. Proof. vm_compute. reflexivity. Qed.
Lemma ParseQualityValue_more t w q : ParseQualityValue [Some t] = Ok (Some q, []) -> ParseQualityValue (Some t :: w) = Ok (Some q, w).
Proof.
  unfold ParseQualityValue. change (IsToken [Some t]) with (IsToken (Some t :: w)). destruct (IsToken _); [|easy].
  cbn [cWord next tl]. destruct (split_on 46 t) as [|a [|b [|c l]]]; try easy.
  - destruct (IsDIGITS a); [|easy]. now intros [= <-].
  - destruct (IsDIGITS a && IsDIGITS b); [|easy]. destruct (int_digits a >=? 1); [now intros [= <-]|].
    destruct (length b <=? 3)%nat; [|easy]. now intros [= <-].
Qed.
Lemma q_str_ok q : 0 <= q <= 1000 -> is_token (q_str q) /\ forall w, ParseQualityValue (Some (q_str q) :: w) = Ok (Some q, w).
Proof.
  intros H. pose proof good_qs as G. rewrite forallb_forall in G.
  assert (I : In (Z.to_nat q) (seq 0 1001)) by (apply in_seq; lia). apply G in I. clear G. unfold good_q in I.
  rewrite Z2Nat.id in I by lia. destruct (ParseQualityValue [Some (q_str q)]) as [[[q'|] [|? ?]]|] eqn:E; try easy.
  rewrite !andb_true_iff in I. destruct I as [[A B] C]. apply Z.eqb_eq in A. subst q'. split.
  - apply tokb_token; [|exact B]. now destruct (q_str q).
  - intros w. now apply ParseQualityValue_more.
Qed.
Lemma q_token : is_token (lit "q"). Proof. now apply tokb_token. Qed.
Lemma q_parameter_ok q w : 0 <= q <= 1000 ->
  q_parameter (Some (lit "q") :: Some [61] :: Some (q_str q) :: w) = Ok (q, w).
Proof.
  intros H. destruct (q_str_ok q H) as [T E]. unfold q_parameter. rewrite ParseSP_tok, RequireToken_tok by apply q_token. cbn [bind].
  change (negb (str_eqb (lower (lit "q")) (lit "q"))) with false. cbn iota. rewrite ParseSP_sep by lia.
  rewrite RequireSeparator_ok. cbn [bind]. rewrite ParseSP_tok by exact T. rewrite E. reflexivity.
Qed.

(** ** Lists of items *)
Definition closes (w : words) : Prop := w = [] \/ exists w', w = Some [44] :: w'.
Lemma closes_SP w : closes w -> ParseSP w = w.
Proof. intros [->|[w' ->]]; [reflexivity|]. now apply ParseSP_sep. Qed.
Lemma closes_ends ia q w : closes w -> ends ia q w.
Proof. intros [->|[w' ->]]; [apply ends_nil|apply ends_comma]. Qed.
Lemma closes_semi w : closes w -> ParseSeparator 59 w = (false, w).
Proof. intros [->|[w' ->]]; [reflexivity|]. now apply ParseSeparator_other. Qed.
Section Items.
Context {A : Type}.
Variable (ok : A -> Prop) (norm : A -> A) (lexitem : A -> list lex) (str_ : A -> str) (item : words -> result (A * words)).
Hypothesis L : forall a, ok a -> lex_ok (lexitem a).
Hypothesis R : forall a, ok a -> render (lexitem a) = str_ a.
Hypothesis P : forall a w, ok a -> closes w -> item (wordsof true (lexitem a) ++ w) = Ok (norm a, w).
Hypothesis M : forall a, ok a -> exists t l, lexitem a = LTok t :: l.
Fixpoint lexitems (l : list A) : list lex :=
  match l with
  | [] => []
  | [a] => lexitem a
  | a :: l' => lexitem a ++ [LSep 44; LSp] ++ lexitems l'
  end.
Lemma lexitems_cons a b l : lexitems (a :: b :: l) = lexitem a ++ [LSep 44; LSp] ++ lexitems (b :: l).
Proof. reflexivity. Qed.
Lemma lexitems_head b l : ok b -> exists t r, lexitems (b :: l) = LTok t :: r.
Proof.
  intros H. destruct (M b H) as (t & r & E). destruct l as [|c l]; [exists t, r; exact E|].
  rewrite lexitems_cons, E. now eexists t, _.
Qed.
Lemma lexitems_ok l : Forall ok l -> lex_ok (lexitems l).
Proof.
  induction l as [|a l IH]; intros F; [exact I|]. apply Forall_cons_iff in F as [Ha F]. destruct l as [|b l]; [now apply L|].
  rewrite lexitems_cons. apply lex_ok_app; [now apply L| |exact I]. specialize (IH F).
  destruct (lexitems_head b l) as (t & r & E); [now apply Forall_inv in F|].
  cbn [app lex_ok]. rewrite E in *. split; [apply single44|]. split; [exact I|exact IH].
Qed.
Lemma lexitems_render l : Forall ok l -> render (lexitems l) = join (lit ", ") (map str_ l).
Proof.
  induction l as [|a l IH]; intros F; [reflexivity|]. apply Forall_cons_iff in F as [Ha F]. destruct l as [|b l]; [now apply R|].
  rewrite lexitems_cons, !render_app, R, IH by assumption. reflexivity.
Qed.
Lemma item_more a w : ok a -> more (wordsof true (lexitem a) ++ w) = true.
Proof.
  intros H. destruct (M a H) as (t & l & E). pose proof (L a H) as K. rewrite E in *. destruct K as [[N _] _].
  cbn. now destruct t.
Qed.
Lemma items_loop_ok : forall l f, Forall ok l -> (length l < f)%nat ->
  items_loop f item (wordsof true (lexitems l)) = Ok (map norm l, []).
Proof.
  induction l as [|a l IH]; intros f F G; (destruct f as [|f]; [cbn in G; lia|]); [reflexivity|].
  apply Forall_cons_iff in F as [Ha F]. destruct l as [|b l].
  - cbn [lexitems items_loop]. pose proof (item_more a [] Ha) as X. pose proof (P a [] Ha (or_introl eq_refl)) as Y.
    rewrite app_nil_r in X, Y. rewrite X. unfold ParseProduction. rewrite Y. reflexivity.
  - rewrite lexitems_cons, wordsof_app. cbn [items_loop]. rewrite item_more by exact Ha.
    unfold ParseProduction. rewrite P; [|exact Ha|right; rewrite wordsof_app; eexists; reflexivity].
    cbn [bind]. rewrite wordsof_app. cbn [wordsof flat_map word1 app render1].
    rewrite ParseSP_sep by lia. rewrite ParseSeparator_ok.
    change (flat_map (word1 true) (lexitems (b :: l))) with (wordsof true (lexitems (b :: l))).
    rewrite IH by (assumption || (cbn in *; lia)). reflexivity.
Qed.
Lemma lexitems_length l : Forall ok l -> (length l <= length (wordsof true (lexitems l)))%nat.
Proof.
  induction l as [|a l IH]; intros F; [cbn; lia|]. apply Forall_cons_iff in F as [Ha F].
  assert (X : (1 <= length (wordsof true (lexitem a)))%nat) by (destruct (M a Ha) as (t & r & ->); cbn; lia).
  destruct l as [|b l]; [exact X|]. rewrite lexitems_cons, !wordsof_app, !app_length. specialize (IH F). cbn [length] in *. lia.
Qed.
Lemma items_SP l : Forall ok l -> ParseSP (wordsof true (lexitems l)) = wordsof true (lexitems l).
Proof.
  destruct l as [|a l]; intros F; [reflexivity|]. apply Forall_inv in F as Ha. destruct (lexitems_head a l Ha) as (t & r & E).
  pose proof (lexitems_ok _ F) as K. rewrite E in *. destruct K as [T _]. cbn [wordsof flat_map word1 app render1]. now apply ParseSP_tok.
Qed.
(** What the parsers of lists do with a list written out *)
Lemma items_parse l : Forall ok l ->
  exists w, WordParser true (join (lit ", ") (map str_ l)) = Ok w /\
    items_loop (S (length w)) item (ParseSP w) = Ok (map norm l, []).
Proof.
  intros F. exists (wordsof true (lexitems l)). rewrite <- lexitems_render by exact F.
  rewrite WordParser_render by now apply lexitems_ok. split; [reflexivity|].
  rewrite items_SP by exact F. apply items_loop_ok; [exact F|]. pose proof (lexitems_length l F). lia.
Qed.
End Items.

Definition plain (a : accept) : bool := (match a_ext a with [] => true | _ => false end) && (a_q a =? 1000).
Definition lexaccept (a : accept) : list lex :=
  lexmedia (a_range a) ++
  (if plain a then [] else [LSep 59; LSp; LTok (lit "q"); LSep 61; LTok (q_str (a_q a))] ++ lexparams (sort by_key (a_ext a))).
Lemma lexaccept_ok a : accept_ok a -> lex_ok (lexaccept a).
Proof.
  intros (Ma & Q & B & G). unfold lexaccept. destruct (q_str_ok _ B) as [T _]. apply lex_ok_app; [now apply lexmedia_ok| |].
  - destruct (plain a); [exact I|]. cbn [app lex_ok]. split; [apply single59|]. split; [exact I|]. split; [apply q_token|].
    split; [exact I|]. split; [apply single61|]. split; [exact T|]. split; [apply lexparams_nottok|].
    apply lexparams_ok, (good_sort _ G).
  - now destruct (plain a).
Qed.
Lemma lexaccept_render a : accept_ok a -> render (lexaccept a) = accept_str a.
Proof.
  intros (Ma & Q & B & G). unfold lexaccept, accept_str. rewrite render_app, lexmedia_render by exact Ma. f_equal.
  rewrite <- negb_andb. fold (plain a). destruct (plain a); [reflexivity|]. cbn [negb].
  rewrite render_app, lexparams_render by apply (good_sort _ G). unfold render. cbn [map concat render1]. rewrite app_nil_r.
  unfold FormatParameters. now rewrite <- !app_assoc.
Qed.
Lemma accept_item_ok a w : accept_ok a -> closes w ->
  RequireAcceptItem (wordsof true (lexaccept a) ++ w) = Ok (norm_accept a, w).
Proof.
  intros (Ma & Q & B & G) C. unfold lexaccept. rewrite wordsof_app, <- app_assoc. unfold RequireAcceptItem.
  match goal with |- context [ParseSP (wordsof true (lexmedia (a_range a)) ++ ?x)] => set (rest := x) end.
  assert (S0 : ParseSP (wordsof true (lexmedia (a_range a)) ++ rest) = wordsof true (lexmedia (a_range a)) ++ rest).
  { unfold lexmedia. cbn [wordsof flat_map word1 app render1]. apply ParseSP_tok, Ma. }
  assert (E : ends false (Some (lit "q")) rest /\ ParseSP rest = rest).
  { subst rest. destruct (plain a).
    - split; [now apply closes_ends|now apply closes_SP].
    - cbn [app wordsof flat_map word1 render1]. split; [right; reflexivity|]. now apply ParseSP_sep. }
  destruct E as [E1 E2].
  pose proof (media_parse (a_range a) (Some (lit "q")) rest true Ma E1 E2 Q) as H.
  rewrite S0. unfold RequireMediaRange. match goal with |- bind ?B _ = _ => replace B with
    (Ok (mkMedia (m_type (a_range a)) (m_sub (a_range a)) (sort by_key (m_params (a_range a))), rest)) by (symmetry; exact H) end.
  cbn [bind]. rewrite E2. unfold rest, norm_accept, norm_media. destruct (plain a) eqn:PL.
  - cbn [wordsof flat_map app]. rewrite closes_semi by exact C. unfold plain in PL. apply andb_true_iff in PL as [A1 A2].
    apply Z.eqb_eq in A2. rewrite A2. destruct (a_ext a); [reflexivity|discriminate].
  - rewrite wordsof_app. cbn [wordsof flat_map word1 app render1]. rewrite ParseSeparator_ok.
    rewrite q_parameter_ok by exact B. cbn [bind].
    match goal with |- context [ParseParameters true None ?x] =>
      replace (ParseParameters true None x) with (Ok (sort by_key (a_ext a), w) : result (params * words)) end; [reflexivity|].
    symmetry. apply (ParseParameters_ok true true None); [now apply closes_ends|now apply closes_SP|now apply good_sort|now apply Forall_forall].
Qed.
Lemma lexaccept_head a : accept_ok a -> exists t l, lexaccept a = LTok t :: l.
Proof. intros _. unfold lexaccept, lexmedia. now eexists _, _. Qed.
Lemma accept_round_trip a : accept_ok a -> accept_FromString (accept_str a) = Ok (norm_accept a).
Proof.
  intros H. unfold accept_FromString. rewrite <- lexaccept_render by exact H. rewrite WordParser_render by now apply lexaccept_ok.
  cbn [bind]. pose proof (accept_item_ok a [] H (or_introl eq_refl)) as E. rewrite app_nil_r in E.
  pose proof (items_SP accept_ok lexaccept lexaccept_ok lexaccept_head [a] (Forall_cons _ H (Forall_nil _))) as S0.
  cbn [lexitems] in S0. rewrite S0, E. reflexivity.
Qed.
Lemma norm_cmp a b : accept_cmp (norm_accept a) (norm_accept b) = accept_cmp a b.
Proof.
  unfold accept_cmp, range_cmp, dict_cmp, norm_accept, norm_media. cbn [a_range a_q m_type m_sub m_params].
  rewrite !(sort_sort by_key by_key_preorder).
  assert (Ln : forall d : params, length (sort by_key d) = length d) by (intros d; apply Permutation_length, sort_perm).
  now rewrite !Ln.
Qed.
Lemma acceptlist_round_trip l : l <> [] -> Forall accept_ok l ->
  acceptlist_FromString (acceptlist_str l) = Ok (AcceptList (map norm_accept l)).
Proof.
  intros N F. unfold acceptlist_FromString, acceptlist_str.
  destruct (items_parse accept_ok norm_accept lexaccept accept_str RequireAcceptItem lexaccept_ok lexaccept_render
    accept_item_ok lexaccept_head l F) as (w & E1 & E2).
  rewrite E1. cbn [bind]. rewrite E2. cbn [bind]. now destruct l.
Qed.
Lemma sorted_map {A} (cmp : A -> A -> comparison) (f : A -> A) l : (forall a b, cmp (f a) (f b) = cmp a b) ->
  StronglySorted (le_ cmp) l -> StronglySorted (le_ cmp) (map f l).
Proof.
  intros E. induction 1 as [|a l S0 IH F]; [constructor|]. cbn [map]. constructor; [exact IH|].
  apply Forall_map. eapply Forall_impl; [|exact F]. intros b H. unfold le_ in *. now rewrite E.
Qed.
Lemma acceptlist_round_trip_sorted l l0 : l = AcceptList l0 -> l <> [] -> Forall accept_ok l ->
  acceptlist_FromString (acceptlist_str l) = Ok (map norm_accept l).
Proof.
  intros -> N F. rewrite acceptlist_round_trip by assumption. f_equal. unfold AcceptList.
  apply (sort_id accept_cmp accept_preorder). apply sorted_map; [apply norm_cmp|]. apply (sort_sorted accept_cmp accept_preorder).
Qed.

Definition lexatoken (a : atoken) : list lex :=
  LTok (at_token a) :: (if at_q a =? 1000 then [] else [LSep 59; LTok (lit "q"); LSep 61; LTok (q_str (at_q a))]).
Lemma lexatoken_ok a : atoken_ok a -> lex_ok (lexatoken a).
Proof.
  intros [T B]. destruct (q_str_ok _ B) as [U _]. pose proof single59. pose proof single61. pose proof q_token.
  unfold lexatoken. destruct (at_q a =? 1000); cbn [lex_ok]; tauto.
Qed.
Lemma lexatoken_render a : atoken_ok a -> render (lexatoken a) = atoken_str a.
Proof.
  intros _. unfold lexatoken, atoken_str. rewrite render_cons. cbn [render1]. f_equal. destruct (at_q a =? 1000); [reflexivity|].
  unfold render. cbn [map concat render1]. now rewrite app_nil_r.
Qed.
Lemma atoken_item_ok a w : atoken_ok a -> closes w -> RequireAcceptToken (wordsof true (lexatoken a) ++ w) = Ok (a, w).
Proof.
  destruct a as [t q]. intros [T B] C. cbn [at_token at_q] in *. unfold lexatoken. cbn [at_token at_q]. rewrite wordsof_cons.
  cbn [word1 render1 app]. unfold RequireAcceptToken. rewrite ParseSP_tok, RequireToken_tok by exact T. cbn [bind].
  destruct (Z.eqb_spec q 1000) as [->|N].
  - cbn [wordsof flat_map app]. rewrite closes_SP, closes_semi by exact C. reflexivity.
  - cbn [wordsof flat_map word1 app render1]. rewrite ParseSP_sep by lia. rewrite ParseSeparator_ok.
    rewrite q_parameter_ok by exact B. reflexivity.
Qed.
Lemma lexatoken_head a : atoken_ok a -> exists t l, lexatoken a = LTok t :: l.
Proof. intros _. unfold lexatoken. now eexists _, _. Qed.
Lemma atoken_round_trip a : atoken_ok a -> atoken_FromString (atoken_str a) = Ok a.
Proof.
  intros H. unfold atoken_FromString. rewrite <- lexatoken_render by exact H. rewrite WordParser_render by now apply lexatoken_ok.
  cbn [bind]. pose proof (atoken_item_ok a [] H (or_introl eq_refl)) as E. rewrite app_nil_r in E.
  pose proof (items_SP atoken_ok lexatoken lexatoken_ok lexatoken_head [a] (Forall_cons _ H (Forall_nil _))) as S0.
  cbn [lexitems] in S0. rewrite S0, E. reflexivity.
Qed.
Lemma token_items_ok l : Forall atoken_ok l -> token_items (atokens_str l) = Ok l.
Proof.
  intros F. unfold token_items, atokens_str.
  destruct (items_parse atoken_ok (fun a => a) lexatoken atoken_str RequireAcceptToken lexatoken_ok lexatoken_render
    atoken_item_ok lexatoken_head l F) as (w & E1 & E2).
  rewrite E1. cbn [bind]. rewrite E2. cbn [bind RequireEnd more cWord]. now rewrite map_id.
Qed.

(** ** Lists of tokens *)
Lemma token_list_ok : forall l f, Forall is_token l -> (2 * length l <= f)%nat ->
  token_list f (wordsof true (lexitems (fun t => [LTok t]) l)) = (l, []).
Proof.
  induction l as [|t l IH]; intros f F G; [now destruct f|]. apply Forall_cons_iff in F as [Ht F].
  destruct f as [|f]; [cbn in G; lia|].
  assert (Mt : forall w, more (Some t :: w) = true) by (intros w; destruct Ht as [N _]; now destruct t).
  destruct l as [|u l].
  - cbn [lexitems wordsof flat_map word1 render1 app token_list]. rewrite Mt, IsToken_tok by exact Ht. cbn [cWord next tl].
    now destruct f.
  - rewrite lexitems_cons, wordsof_app. cbn [wordsof flat_map word1 render1 app token_list].
    rewrite Mt, IsToken_tok by exact Ht. cbn [cWord next tl]. destruct f as [|f]; [cbn in G; lia|].
    cbn [token_list]. change (more (Some [44] :: ?w)) with true. cbn iota.
    rewrite IsToken_sep by (unfold separator; cbn [In]; lia).
    change (is_sep 44 (Some [44] :: _)) with true. cbn iota. cbn [next tl].
    change (flat_map (word1 true) (lexitems ?g (u :: l))) with (wordsof true (lexitems g (u :: l))).
    rewrite IH; [reflexivity|exact F|cbn in *; lia].
Qed.
Lemma tokens_parse l : Forall is_token l ->
  exists w, WordParser true (join (lit ", ") l) = Ok w /\ ParseTokenList w = (l, []).
Proof.
  intros F. exists (wordsof true (lexitems (fun t => [LTok t]) l)).
  assert (X : render (lexitems (fun t => [LTok t]) l) = join (lit ", ") (map (fun t => t) l)).
  { apply (lexitems_render is_token); [|exact F]. intros a _. unfold render. cbn. apply app_nil_r. }
  rewrite map_id in X. rewrite <- X.
  assert (Hd : forall a, is_token a -> exists t l, [LTok a] = LTok t :: l) by (intros a _; now exists a, []).
  assert (Lx : forall a, is_token a -> lex_ok [LTok a]) by (intros a H; cbn [lex_ok]; tauto).
  rewrite WordParser_render by (apply (lexitems_ok is_token); assumption). split; [reflexivity|].
  unfold ParseTokenList. apply token_list_ok; [exact F|].
  clear - l. induction l as [|t l IH]; [cbn; lia|]. destruct l as [|u l]; [cbn; lia|].
  rewrite lexitems_cons, wordsof_app. cbn [wordsof flat_map word1 render1 app length] in *.
  change (flat_map (word1 true) (lexitems ?g (u :: l))) with (wordsof true (lexitems g (u :: l))) in *. lia.
Qed.
Lemma none_token : is_token (lit "none"). Proof. now apply tokb_token. Qed.
Lemma ranges_round_trip args r : Forall is_token args -> AcceptRanges args = Ok r -> ranges_FromString (ranges_str r) = Ok r.
Proof.
  intros F E. pose proof E as E0. unfold AcceptRanges in E0. destruct (has (lit "none") (map lower args)) eqn:H.
  - destruct args as [|a [|b l]]; [discriminate| |discriminate]. cbn [map] in E0. inversion E0; subst. reflexivity.
  - inversion E0; subst. unfold ranges_FromString, ranges_str. cbn [r_ranges]. destruct args as [|a l]; [reflexivity|].
    destruct (tokens_parse (a :: l) F) as (w & E1 & E2). rewrite E1. cbn [bind]. rewrite E2. cbn [RequireEnd more cWord bind]. exact E.
Qed.
Lemma upper_upper s : upper (upper s) = upper s.
Proof.
  unfold upper. rewrite map_map. apply map_ext. intros c. destruct ((c >=? 97) && (c <=? 122)) eqn:E; [|now rewrite E].
  replace ((c - 32 >=? 97) && (c - 32 <=? 122)) with false by lia. reflexivity.
Qed.
Lemma upper_token s : is_token s -> is_token (upper s).
Proof.
  intros [N F]. split; [now destruct s|]. unfold upper. apply Forall_map. eapply Forall_impl; [|exact F].
  intros c. unfold token_char, separator. cbn [In]. destruct ((c >=? 97) && (c <=? 122)) eqn:E; lia.
Qed.
Lemma allow_round_trip args : Forall is_token args -> allow_FromString (allow_str (Allow args)) = Ok (Allow args).
Proof.
  intros F. unfold allow_FromString, allow_str, Allow. cbn [al_methods].
  assert (F' : Forall is_token (map upper args)) by (apply Forall_map; eapply Forall_impl; [|exact F]; apply upper_token).
  destruct (tokens_parse _ F') as (w & E1 & E2). rewrite E1. cbn [bind]. rewrite E2. cbn [RequireEnd more cWord bind].
  assert (U : map upper (map upper args) = map upper args) by (rewrite map_map; apply map_ext, upper_upper).
  now rewrite U.
Qed.
Lemma has_In s l : has s l = true <-> In s l.
Proof.
  unfold has. rewrite existsb_exists. split.
  - intros (x & H & E). apply str_eqb_eq in E. now subst.
  - intros H. exists s. split; [exact H|apply str_eqb_refl].
Qed.
Lemma Allowed_spec args m : Allowed (Allow args) m = true <-> exists a, In a args /\ upper a = upper m.
Proof.
  unfold Allowed, Allow. cbn [al_sorted]. rewrite has_In. split.
  - intros H. rewrite (sort_perm scmp) in H. apply in_map_iff in H as (a & E & I0). now exists a.
  - intros (a & I0 & E). rewrite (sort_perm scmp). apply in_map_iff. now exists a.
Qed.
Lemma sorted_eq a b : tag_cmp (sort scmp a) (sort scmp b) = Eq <-> Permutation a b.
Proof.
  rewrite tag_cmp_eq. split; intros H.
  - rewrite <- (sort_perm scmp a), H. apply sort_perm.
  - apply (sort_unique scmp scmp_preorder); [|exact H]. intros x y _ _. apply scmp_eq.
Qed.

Lemma bytes_token : is_token (lit "bytes"). Proof. now apply tokb_token. Qed.
Lemma star_token : is_token star. Proof. now apply tokb_token. Qed.
Lemma not_star n : 0 <= n -> str_eqb (fmt n) star = false.
Proof.
  intros H. apply str_eqb_neq. intros X. pose proof (fmt_digits n H) as D. rewrite X in D. change star with [42] in D. apply Forall_inv in D.
  unfold is_dec in D. lia.
Qed.
Lemma range_token a b : 0 <= a -> 0 <= b -> is_token (fmt a ++ 45 :: fmt b) /\ str_eqb (fmt a ++ 45 :: fmt b) star = false.
Proof.
  intros A B. split; [split|].
  - intros X. apply app_eq_nil in X. now apply (fmt_not_nil a).
  - apply Forall_app. split; [|constructor].
    + eapply Forall_impl; [|now apply fmt_digits]. apply dec_token_char.
    + unfold token_char, separator. cbn [In]. lia.
    + eapply Forall_impl; [|now apply fmt_digits]. apply dec_token_char.
  - apply str_eqb_neq. intros X. pose proof (fmt_digits a A) as D. pose proof (fmt_not_nil a) as N.
    destruct (fmt a) as [|c l]; [easy|]. apply Forall_inv in D. change star with [42] in X. inversion X. unfold is_dec in D. lia.
Qed.
Lemma crange_round_trip r : crange_ok r -> exists s, crange_str r = Ok s /\ crange_FromString s = Ok r.
Proof.
  destruct r as [f l t]. intros [H T]. cbn [cr_first cr_last cr_total] in *.
  set (tt := match t with None => star | Some n => fmt n end).
  assert (Tt : is_token tt) by (destruct t; [now apply fmt_token|apply star_token]).
  assert (PT : (if str_eqb tt star then Ok None else if IsDIGITS tt then Ok (Some (int_digits tt)) else Err BadSyntax) = Ok t).
  { unfold tt. destruct t as [n|]; [|reflexivity]. rewrite not_star by exact T.
    rewrite IsDIGITS_spec by (apply fmt_not_nil || now apply fmt_digits). now rewrite int_digits_dval, dval_fmt. }
  assert (Et : match t with None => star | Some n => pystr n end = tt) by (destruct t; [now apply pystr_nonneg|reflexivity]).
  assert (K : exists u, is_token u /\ crange_str (mkRange f l t) = Ok (lit "bytes " ++ u ++ lit "/" ++ tt) /\
    (if str_eqb u star then Ok (None, None)
     else match split_on 45 u with
          | [a; b] => if negb (IsDIGITS a) || negb (IsDIGITS b) then Err BadSyntax
                      else Ok (Some (int_digits a), Some (int_digits b))
          | _ => Err BadSyntax
          end) = Ok (f, l) /\ ContentRange f l t = Ok (mkRange f l t)).
  { destruct f as [a|], l as [b|]; try easy.
    - destruct H as [A B]. exists (fmt a ++ 45 :: fmt b). destruct (range_token a b A B) as [U V]. rewrite V.
      split; [exact U|]. split.
      + unfold crange_str. cbn [cr_first cr_last cr_total bind]. rewrite Et, !pystr_nonneg by assumption. do 2 f_equal.
      + split; [|reflexivity]. rewrite split_app_no by (apply fmt_no; [exact A|unfold is_dec; lia]).
        rewrite split_no by (apply fmt_no; [exact B|unfold is_dec; lia]).
        rewrite !IsDIGITS_spec by (apply fmt_not_nil || now apply fmt_digits). cbn [negb orb].
        now rewrite !int_digits_dval, !dval_fmt by assumption.
    - exists star. split; [apply star_token|]. split; [|split; reflexivity]. unfold crange_str. cbn [cr_first cr_last cr_total bind]. now rewrite Et. }
  destruct K as (u & U & E1 & E2 & E3). eexists. split; [exact E1|].
  replace (lit "bytes " ++ u ++ lit "/" ++ tt) with (render [LTok (lit "bytes"); LSp; LTok u; LSep 47; LTok tt])
    by (unfold render; cbn [map concat render1]; rewrite app_nil_r; reflexivity).
  unfold crange_FromString. rewrite WordParser_render.
  2:{ cbn [lex_ok]. pose proof bytes_token. pose proof single47. tauto. }
  cbn [bind wordsof flat_map word1 app render1]. rewrite ParseSP_tok by apply bytes_token. unfold RequireContentRangeSpec.
  rewrite ParseSP_tok, RequireToken_tok by apply bytes_token. cbn [bind].
  change (negb (str_eqb (lower (lit "bytes")) (lit "bytes"))) with false. cbn iota.
  rewrite ParseSP_tok, RequireToken_tok by exact U. cbn [bind].
  match goal with |- context [bind (if str_eqb u star then ?x else ?y)] =>
    replace (if str_eqb u star then x else y) with (Ok (f, l)) by (symmetry; exact E2) end.
  cbn [bind]. rewrite ParseSP_sep by lia. rewrite RequireSeparator_ok. cbn [bind].
  rewrite ParseSP_tok, RequireToken_tok by exact Tt. cbn [bind]. rewrite PT. cbn [bind]. rewrite E3. reflexivity.
Qed.

(** ** Cache-Control *)
Lemma assoc_cset k v k' d : assoc k' (cset k v d) = if str_eqb k' k then Some v else assoc k' d.
Proof.
  induction d as [|[k1 v1] d IH]; [reflexivity|]. cbn [cset]. destruct (str_eqb k k1) eqn:E.
  - apply str_eqb_eq in E. subst. cbn [assoc]. now destruct (str_eqb k' k1).
  - cbn [assoc]. rewrite IH. destruct (str_eqb k' k1) eqn:E1; [|reflexivity]. apply str_eqb_eq in E1. subst.
    destruct (str_eqb k1 k) eqn:E2; [|reflexivity]. apply str_eqb_eq in E2. subst. now rewrite str_eqb_refl in E.
Qed.
Lemma cache_fold k args : forall d, assoc k (fold_left (fun d a => cset (lower (fst a)) (snd a) d) args d) =
  match last_value k args with Some v => Some v | None => assoc k d end.
Proof.
  induction args as [|[n v] l IH]; intros d; [reflexivity|]. cbn [fold_left last_value fst snd]. rewrite IH, assoc_cset.
  destruct (last_value k l); [reflexivity|]. now destruct (str_eqb k (lower n)).
Qed.
Lemma last_value_In k args v : last_value k args = Some v <->
  exists a n b, args = a ++ (n, v) :: b /\ lower n = k /\ Forall (fun e => lower (fst e) <> k) b.
Proof.
  revert v. induction args as [|[n w] l IH]; intros v; cbn [last_value].
  - split; [discriminate|]. now intros ([|] & n & b & X & _).
  - destruct (last_value k l) as [v'|] eqn:E.
    + split.
      * intros [= <-]. destruct (proj1 (IH v') eq_refl) as (a & m & b & -> & X & Y). now exists ((n, w) :: a), m, b.
      * intros (a & m & b & E0 & X & Y). f_equal. destruct a as [|e a]; cbn in E0; inversion E0; subst.
        -- destruct (proj1 (IH v') eq_refl) as (a & m' & b' & -> & X' & Y'). exfalso.
           apply Forall_app in Y as [_ Y]. apply Forall_inv in Y. cbn [fst] in Y. congruence.
        -- assert (Z0 : Some v' = Some v) by (apply IH; now exists a, m, b). congruence.
    + destruct (str_eqb k (lower n)) eqn:E1.
      * apply str_eqb_eq in E1. split.
        -- intros [= <-]. exists [], n, l. repeat split; [now symmetry|]. clear - E. induction l as [|[m u] l IH]; [constructor|].
           cbn [last_value] in E. destruct (last_value k l); [discriminate|]. destruct (str_eqb k (lower m)) eqn:E2; [discriminate|].
           constructor; [|now apply IH]. apply str_eqb_neq in E2. cbn [fst]. congruence.
        -- intros (a & m & b & E0 & X & Y). destruct a as [|e a]; cbn in E0; inversion E0; subst; [reflexivity|].
           assert (Z0 : None = Some v) by (apply IH; now exists a, m, b). discriminate.
      * split; [discriminate|]. intros (a & m & b & E0 & X & Y). destruct a as [|e a]; cbn in E0; inversion E0; subst.
        -- now rewrite str_eqb_refl in E1.
        -- apply IH. now exists a, m, b.
Qed.
Lemma map_ok_map {A B} (f : A -> result B) (g : A -> B) l : (forall a, In a l -> f a = Ok (g a)) -> map_ok f l = Ok (map g l).
Proof.
  induction l as [|a l IH]; intros H; [reflexivity|]. cbn [map_ok map]. rewrite (H a) by now left. cbn [bind].
  rewrite IH by (intros; apply H; now right). reflexivity.
Qed.
Lemma last_value_nodup args n v : NoDup (map (fun e => lower (fst e)) args) -> In (n, v) args -> last_value (lower n) args = Some v.
Proof.
  intros ND I0. apply last_value_In. destruct (in_split _ _ I0) as (a & b & ->). exists a, n, b. split; [reflexivity|]. split; [reflexivity|].
  rewrite map_app in ND. cbn [map fst] in ND. apply NoDup_remove_2 in ND. apply Forall_forall. intros e He X. apply ND.
  apply in_app_iff. right. apply in_map_iff. now exists e.
Qed.
Lemma cache_str_ok args c : CacheControl args = Ok c -> NoDup (map (fun e => lower (fst e)) args) ->
  cache_str c = Ok (join (lit ", ") (map (fun e => cache_text (fst e) (snd e)) args)).
Proof.
  intros E ND. unfold CacheControl in E. destruct args as [|a0 l0] eqn:EA; [discriminate|]. rewrite <- EA in *.
  assert (E1 : c = mkCache (map (fun a => lower (fst a)) args) (fold_left (fun d a => cset (lower (fst a)) (snd a) d) args [])) by congruence.
  clear E EA. subst c. unfold cache_str. cbn [cc_directives].
  set (c := mkCache _ _).
  assert (X : map_ok (cache_item c) (map (fun a => lower (fst a)) args) = Ok (map (fun e => cache_text (fst e) (snd e)) args)).
  { assert (K : forall e, In e args -> cache_item c (lower (fst e)) = Ok (cache_text (fst e) (snd e))).
    { intros [n v] I0. unfold cache_item, c. cbn [cc_values fst snd]. rewrite cache_fold. rewrite (last_value_nodup args n v ND I0). now destruct v. }
    clearbody c. clear - K. induction args as [|e l IH]; [reflexivity|]. cbn [map map_ok]. rewrite (K e) by now left. cbn [bind].
    rewrite IH by (intros; apply K; now right). reflexivity. }
  rewrite X. reflexivity.
Qed.
