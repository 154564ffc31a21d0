(** Values of headers: what is written is read back. *)
From Coq Require Import Lia Zify Permutation Sorted.
From Verif Require Import Py Iso Dec XmlUtils Imscp ImscpProofs HttpCore HttpParams HttpHeaders HttpSpec
  HttpProofs HttpProofs2 HttpProofs3.
Open Scope Z_scope.

Lemma lex_ok_app a b : lex_ok a -> lex_ok b -> (match b with LTok _ :: _ => False | _ => True end) -> lex_ok (a ++ b).
Proof.
  intros Ha Hb J. induction a as [|x a IH]; [exact Hb|].
  assert (H : lex_ok a) by (destruct x; cbn in Ha; tauto). specialize (IH H).
  destruct x; cbn [app lex_ok] in *.
  - destruct Ha as (T & R & _). split; [exact T|split; [|exact IH]]. destruct a as [|y a]; [now destruct b as [|[] b]|exact R].
  - split; [tauto|exact IH].
  - split; [tauto|exact IH].
  - destruct Ha as (R & _). destruct a as [|y a]; [easy|]. split; [exact R|exact IH].
Qed.

(** ** Parameters *)
Definition lexval (v : str) : lex := if snd (quote_loop v false) then LQuo v else LTok v.
Definition lexparam (e : str * (str * str)) : list lex :=
  let '(_, (n, v)) := e in [LSep 59; LSp; LTok n; LSep 61; lexval v].
Definition lexparams (d : params) : list lex := flat_map lexparam d.

Lemma lexval_cases v : v <> [] -> octets v ->
  lexval v = LTok v /\ is_token v /\ QuoteString v false = v \/
  lexval v = LQuo v /\ QuoteString v false = QuoteString v true.
Proof.
  intros N O. unfold lexval. pose proof (quote_false v) as Q.
  destruct (QuoteString_false v) as [[E T]|[E T]].
  - left. replace (snd (quote_loop v false)) with false by (symmetry; now apply Q). repeat split; assumption.
  - right. destruct (snd (quote_loop v false)); [now split|]. exfalso. now apply T, Q.
Qed.
Lemma single59 : single 59. Proof. unfold single. cbn [In]. lia. Qed.
Lemma single61 : single 61. Proof. unfold single. cbn [In]. lia. Qed.
Lemma single47 : single 47. Proof. unfold single. cbn [In]. lia. Qed.
Lemma single44 : single 44. Proof. unfold single. cbn [In]. lia. Qed.
Lemma single58 : single 58. Proof. unfold single. cbn [In]. lia. Qed.
Lemma lexparam_ok e : good_param e -> lex_ok (lexparam e).
Proof.
  destruct e as [k [n v]]. intros (T & _ & O & N). cbn [lexparam lex_ok].
  destruct (lexval_cases v N O) as [(-> & Tv & _)|(-> & _)]; cbn [lex_ok]; repeat split; try apply T; try apply Tv; try exact O;
    (apply single59 || apply single61).
Qed.
Lemma lexparams_ok d : Forall good_param d -> lex_ok (lexparams d).
Proof.
  induction 1 as [|e d H _ IH]; [exact I|]. cbn [lexparams flat_map]. apply lex_ok_app; [now apply lexparam_ok|exact IH|].
  destruct d as [|[k [n v]] d]; exact I.
Qed.
Lemma lexparam_render e : good_param e -> render (lexparam e) = format_param e.
Proof.
  destruct e as [k [n v]]. intros (T & _ & O & N). unfold lexparam, format_param, render. cbn [map concat].
  destruct (lexval_cases v N O) as [(-> & _ & ->)|(-> & ->)]; cbn [render1]; rewrite app_nil_r; reflexivity.
Qed.
Lemma lexparams_render d : Forall good_param d -> render (lexparams d) = concat (map format_param d).
Proof.
  induction 1 as [|e d H _ IH]; [reflexivity|]. cbn [lexparams flat_map map concat].
  rewrite render_app, (lexparam_render e H). f_equal. exact IH.
Qed.

Lemma sep59 : separator 59. Proof. unfold separator. cbn [In]. lia. Qed.
Lemma one_param_ok ig ia q e w : good_param e -> (match q with Some q => fst e <> q | None => True end) ->
  one_param ia q (wordsof ig (lexparam e) ++ w) = Ok (e, w).
Proof.
  destruct e as [k [n v]]. intros (T & -> & O & N) Q. cbn [fst] in Q. unfold lexparam, wordsof. cbn [flat_map word1 render1 app].
  unfold one_param. rewrite ParseSP_sep by lia. rewrite RequireSeparator_ok. cbn [bind].
  rewrite <- app_assoc.
  match goal with |- context [RequireToken (ParseSP ?x)] =>
    replace (ParseSP x) with (Some n :: Some [61] :: word1 ig (lexval v) ++ w) end.
  2:{ rewrite app_nil_r. destruct ig; cbn [app]; [symmetry; apply ParseSP_tok, T|symmetry; apply ParseSP_sp]. }
  rewrite RequireToken_tok by exact T. cbn [bind].
  replace (match q with Some q0 => str_eqb (lower n) q0 | None => false end) with false.
  2:{ destruct q as [q|]; [|reflexivity]. symmetry. now apply str_eqb_neq. }
  assert (E1 : skip_if ia (Some [61] :: word1 ig (lexval v) ++ w) = Some [61] :: word1 ig (lexval v) ++ w).
  { destruct ia; [|reflexivity]. cbn [skip_if]. now apply ParseSP_sep. }
  rewrite E1, RequireSeparator_ok. cbn [bind].
  destruct (lexval_cases v N O) as [(-> & Tv & _)|(-> & _)]; cbn [word1 render1 app].
  - replace (skip_if ia (Some v :: w)) with (Some v :: w) by (destruct ia; [symmetry; now apply ParseSP_tok|reflexivity]).
    rewrite IsToken_tok, RequireToken_tok by exact Tv. reflexivity.
  - replace (skip_if ia (Some (QuoteString v true) :: w)) with (Some (QuoteString v true) :: w)
      by (destruct ia; [symmetry; now apply ParseSP_quo|reflexivity]).
    rewrite IsToken_quo, RequireQuotedString_ok. reflexivity.
Qed.
Lemma dset_new k v d : ~ In k (map fst d) -> dset k v d = d ++ [(k, v)].
Proof.
  induction d as [|[k' v'] d IH]; intros N; [reflexivity|]. cbn [dset]. cbn [map fst] in N.
  rewrite (proj2 (str_eqb_neq k k')) by (intros ->; apply N; now left). rewrite IH; [reflexivity|]. intros X. apply N. now right.
Qed.
(** What stops the loop *)
Definition ends (ia : bool) (q : option str) (w : words) : Prop :=
  more w = false \/ one_param ia q w = Err BadSyntax.
Lemma lexparams_more ig e w : more (wordsof ig (lexparam e) ++ w) = true.
Proof. destruct e as [k [n v]]. reflexivity. Qed.
Lemma params_loop_ok ig ia q w : ends ia q w -> forall d acc f, Forall good_param d ->
  NoDup (map fst (acc ++ d)) -> Forall (fun e => match q with Some q => fst e <> q | None => True end) d ->
  (length d < f)%nat ->
  params_loop f ia q acc (wordsof ig (lexparams d) ++ w) = Ok (acc ++ d, w).
Proof.
  intros E. induction d as [|e d IH]; intros acc f G ND Q F; (destruct f as [|f]; [cbn in F; lia|]).
  - cbn [lexparams flat_map wordsof app params_loop]. rewrite app_nil_r. destruct E as [->| ->]; [reflexivity|]. now destruct (more w).
  - cbn [lexparams flat_map]. rewrite wordsof_app, <- app_assoc.
    cbn [params_loop]. rewrite lexparams_more.
    apply Forall_cons_iff in G as [Ge G]. apply Forall_cons_iff in Q as [Qe Q].
    rewrite one_param_ok by assumption. destruct e as [k v].
    assert (ND' := ND). rewrite map_app in ND'. cbn [map fst] in ND'. apply NoDup_remove_2 in ND'.
    rewrite dset_new by (intros X; apply ND'; apply in_app_iff; now left).
    fold lexparams in *. change (flat_map lexparam d) with (lexparams d).
    rewrite IH; [now rewrite <- app_assoc|exact G| |exact Q|cbn in F; lia]. now rewrite <- app_assoc.
Qed.
Lemma lexparams_words ig d : Forall good_param d -> (length d <= length (wordsof ig (lexparams d)))%nat.
Proof.
  induction 1 as [|[k [n v]] d H _ IH]; [cbn; lia|]. cbn [lexparams flat_map]. rewrite wordsof_app, app_length.
  change (flat_map lexparam d) with (lexparams d). cbn [lexparam wordsof flat_map]. rewrite !app_length. cbn [word1 length]. lia.
Qed.
Lemma ParseSP_params ig e d w : ParseSP (wordsof ig (lexparams (e :: d)) ++ w) = wordsof ig (lexparams (e :: d)) ++ w.
Proof. destruct e as [k [n v]]. cbn [lexparams flat_map lexparam wordsof word1 render1 app]. apply ParseSP_sep. lia. Qed.
Lemma ParseParameters_ok ig ia q d w : ends ia q w -> ParseSP w = w -> good_params d ->
  Forall (fun e => match q with Some q => fst e <> q | None => True end) d ->
  ParseParameters ia q (wordsof ig (lexparams d) ++ w) = Ok (d, w).
Proof.
  intros E W [G ND] Q. unfold ParseParameters.
  assert (L := lexparams_words ig d G).
  assert (X : ParseSP (wordsof ig (lexparams d) ++ w) = wordsof ig (lexparams d) ++ w).
  { destruct d as [|e d]; [exact W|apply ParseSP_params]. }
  rewrite X. rewrite params_loop_ok; [reflexivity|exact E|exact G|exact ND|exact Q|]. rewrite app_length. lia.
Qed.
Lemma good_sort d : good_params d -> good_params (sort by_key d).
Proof.
  intros [G ND]. pose proof (sort_perm by_key d) as PM. split.
  - apply Forall_forall. intros e He. rewrite PM in He. rewrite Forall_forall in G. now apply G.
  - now rewrite PM.
Qed.
Lemma ends_nil ia q : ends ia q []. Proof. now left. Qed.
Lemma ends_comma ia q w : ends ia q (Some [44] :: w).
Proof. right. reflexivity. Qed.

Lemma dotted_token a b : 0 <= a -> 0 <= b -> is_token (fmt a ++ [46] ++ fmt b).
Proof.
  intros A B. split.
  - intros X. apply app_eq_nil in X. now apply (fmt_not_nil a).
  - apply Forall_app. split; [|constructor].
    + eapply Forall_impl; [|now apply fmt_digits]. apply dec_token_char.
    + unfold token_char, separator. cbn [In]. lia.
    + eapply Forall_impl; [|now apply fmt_digits]. apply dec_token_char.
Qed.
Lemma fmt_no x n : 0 <= n -> ~ is_dec x -> ~ In x (fmt n).
Proof. intros H. apply digits_no. now apply fmt_digits. Qed.
Lemma http_token : is_token (lit "HTTP").
Proof. change (lit "HTTP") with [72; 84; 84; 80]. split; [discriminate|]. repeat constructor; unfold separator; cbn [In]; lia. Qed.
Lemma version_round_trip v : version_ok v -> version_FromString (version_str v) = Ok v.
Proof.
  destruct v as [a b]. intros [A B]. cbn in A, B. unfold version_FromString, version_str. cbn [v_major v_minor].
  rewrite !pystr_nonneg by assumption. change (lit ".") with [46].
  replace (lit "HTTP/" ++ fmt a ++ [46] ++ fmt b) with (render [LTok (lit "HTTP"); LSep 47; LTok (fmt a ++ [46] ++ fmt b)])
    by (unfold render; cbn [map concat render1]; rewrite app_nil_r; reflexivity).
  pose proof (dotted_token a b A B) as T.
  rewrite WordParser_render.
  2:{ cbn [lex_ok]. split; [apply http_token|]. split; [exact I|]. split; [apply single47|]. split; [exact T|]. now split. }
  cbn [bind wordsof flat_map word1 app]. cbn [render1]. unfold ParseHTTPVersion.
  rewrite ParseSP_tok, RequireToken_tok by apply http_token. cbn [bind].
  change (negb (str_eqb (upper (lit "HTTP")) (lit "HTTP"))) with false. cbn iota.
  rewrite ParseSP_sep by lia. rewrite RequireSeparator_ok. cbn [bind].
  rewrite ParseSP_tok, RequireToken_tok by exact T. cbn [bind].
  change (fmt a ++ [46] ++ fmt b) with (fmt a ++ 46 :: fmt b).
  rewrite split_app_no by (apply fmt_no; [exact A|unfold is_dec; lia]).
  rewrite split_no by (apply fmt_no; [exact B|unfold is_dec; lia]).
  rewrite !IsDIGITS_spec by (apply fmt_not_nil || now apply fmt_digits). cbn [negb orb].
  rewrite !int_digits_dval, !dval_fmt by assumption. reflexivity.
Qed.

(** ** Entity tags *)
Lemma w_token : is_token (lit "W").
Proof. change (lit "W") with [87]. split; [discriminate|]. repeat constructor; unfold separator; cbn [In]; lia. Qed.
Lemma etag_round_trip e : octets (e_tag e) -> etag_FromString (etag_str e) = Ok e.
Proof.
  destruct e as [t w]. cbn [e_tag]. intros O. unfold etag_FromString, etag_str. cbn [e_tag e_weak]. destruct w.
  - replace (lit "W/" ++ QuoteString t true) with (render [LTok (lit "W"); LSep 47; LQuo t])
      by (unfold render; cbn [map concat render1]; rewrite app_nil_r; reflexivity).
    rewrite WordParser_render.
    2:{ cbn [lex_ok]. split; [apply w_token|]. split; [exact I|]. split; [apply single47|]. now split. }
    cbn [bind wordsof flat_map word1 app]. unfold RequireEntityTag. cbn [render1]. rewrite ParseSP_tok by apply w_token.
    unfold ParseToken. rewrite IsToken_tok by apply w_token. cbn [cWord next tl].
    rewrite ParseSP_sep by lia. change (negb (str_eqb (upper (lit "W")) (lit "W"))) with false. cbn iota.
    rewrite RequireSeparator_ok. cbn [bind]. rewrite ParseSP_quo, RequireQuotedString_ok. reflexivity.
  - replace (QuoteString t true) with (render [LQuo t])
      by (unfold render; cbn [map concat render1]; rewrite app_nil_r; reflexivity).
    rewrite WordParser_render by (cbn; tauto).
    cbn [bind wordsof flat_map word1 app]. unfold RequireEntityTag. cbn [render1]. rewrite ParseSP_quo.
    unfold ParseToken. rewrite IsToken_quo. rewrite ParseSP_quo. cbn [bind]. rewrite RequireQuotedString_ok. reflexivity.
Qed.

Definition lexmedia (m : media) : list lex := LTok (m_type m) :: LSep 47 :: LTok (m_sub m) :: lexparams (sort by_key (m_params m)).
Lemma lexparams_nottok d : match lexparams d with LTok _ :: _ => False | _ => True end.
Proof. now destruct d as [|[k [n v]] d]. Qed.
Lemma lexmedia_ok m : media_ok m -> lex_ok (lexmedia m).
Proof.
  intros (T & U & _ & _ & G). apply good_sort in G. unfold lexmedia. cbn [lex_ok].
  split; [exact T|]. split; [exact I|]. split; [apply single47|]. split; [exact U|]. split; [apply lexparams_nottok|].
  apply lexparams_ok, G.
Qed.
Lemma lexmedia_render m : media_ok m -> render (lexmedia m) = media_str m.
Proof.
  intros (_ & _ & _ & _ & G). unfold lexmedia. rewrite !render_cons. cbn [render1].
  rewrite lexparams_render by apply (good_sort _ G). reflexivity.
Qed.
Lemma media_parse m q w ig : media_ok m -> ends false q w -> ParseSP w = w ->
  Forall (fun e => match q with Some q => fst e <> q | None => True end) (m_params m) ->
  ('(t, w) <- RequireToken (ParseSP (wordsof ig (lexmedia m) ++ w)) ;;
   w <- RequireSeparator 47 w ;;
   '(u, w) <- RequireToken w ;;
   '(ps, w) <- ParseParameters false q (ParseSP w) ;;
   Ok (mkMedia (lower t) (lower u) ps, w))
  = Ok (mkMedia (m_type m) (m_sub m) (sort by_key (m_params m)), w).
Proof.
  intros (T & U & LT & LU & G) E W Q. unfold lexmedia. rewrite !wordsof_cons. cbn [word1 render1 app].
  rewrite ParseSP_tok, RequireToken_tok by exact T. cbn [bind]. rewrite RequireSeparator_ok. cbn [bind].
  rewrite RequireToken_tok by exact U. cbn [bind].
  set (d := sort by_key (m_params m)).
  assert (X : ParseSP (wordsof ig (lexparams d) ++ w) = wordsof ig (lexparams d) ++ w)
    by (destruct d as [|e d]; [exact W|apply ParseSP_params]).
  rewrite X, ParseParameters_ok; [|exact E|exact W|now apply good_sort|].
  - cbn [bind]. now rewrite LT, LU.
  - apply Forall_forall. intros e He. unfold d in He. rewrite sort_perm in He. rewrite Forall_forall in Q. now apply Q.
Qed.
Lemma media_round_trip m : media_ok m ->
  media_FromString (media_str m) = Ok (mkMedia (m_type m) (m_sub m) (sort by_key (m_params m))).
Proof.
  intros M. unfold media_FromString. rewrite <- lexmedia_render by exact M.
  rewrite WordParser_render by now apply lexmedia_ok. cbn [bind].
  pose proof (media_parse m None [] false M (ends_nil _ _) eq_refl) as H. rewrite app_nil_r in H.
  unfold RequireMediaType. rewrite H; [reflexivity|]. now apply Forall_forall.
Qed.
Lemma range_round_trip m : media_ok m -> Forall (fun e => fst e <> lit "q") (m_params m) ->
  range_FromString (media_str m) = Ok (mkMedia (m_type m) (m_sub m) (sort by_key (m_params m))).
Proof.
  intros M Q. unfold range_FromString. rewrite <- lexmedia_render by exact M.
  rewrite WordParser_render by now apply lexmedia_ok. cbn [bind].
  pose proof (media_parse m (Some (lit "q")) [] true M (ends_nil _ _) eq_refl Q) as H. rewrite app_nil_r in H.
  unfold RequireMediaRange. now rewrite H.
Qed.

(** ** Transfer encodings *)
Lemma chunked_token : is_token (lit "chunked").
Proof.
  change (lit "chunked") with [99; 104; 117; 110; 107; 101; 100]. split; [discriminate|].
  repeat constructor; unfold separator; cbn [In]; lia.
Qed.
Lemma encoding_round_trip e : encoding_ok e ->
  encoding_FromString (encoding_str e) = Ok (mkEncoding (te_token e) (sort by_key (te_params e))).
Proof.
  destruct e as [t d]. intros (T & L & G & C). cbn [te_token te_params] in *. unfold encoding_FromString, encoding_str. cbn [te_token te_params].
  assert (R : t ++ FormatParameters d = render (LTok t :: lexparams (sort by_key d))).
  { rewrite render_cons. cbn [render1]. now rewrite lexparams_render by apply (good_sort _ G). }
  rewrite R, WordParser_render.
  2:{ cbn [lex_ok]. split; [exact T|]. split; [apply lexparams_nottok|]. apply lexparams_ok, (good_sort _ G). }
  cbn [bind]. rewrite wordsof_cons. cbn [word1 app render1]. unfold RequireTransferEncoding.
  rewrite ParseSP_tok, RequireToken_tok by exact T. cbn [bind]. rewrite L.
  destruct (str_eqb t (lit "chunked")) eqn:E; cbn [negb].
  - apply str_eqb_eq in E. subst t. rewrite (C eq_refl). reflexivity.
  - rewrite <- (app_nil_r (wordsof true (lexparams _))).
    rewrite ParseParameters_ok; [|apply ends_nil|reflexivity|now apply good_sort|now apply Forall_forall].
    cbn [bind RequireEnd more cWord]. unfold TransferEncoding. rewrite L, E. reflexivity.
Qed.

(** Parameters in the order in which they are written *)
Definition norm_media (m : media) : media := mkMedia (m_type m) (m_sub m) (sort by_key (m_params m)).
Definition norm_accept (a : accept) : accept := mkAccept (norm_media (a_range a)) (a_q a) (sort by_key (a_ext a)).
