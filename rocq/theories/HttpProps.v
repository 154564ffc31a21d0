(** Properties C64, C65 and C108-C117. *)
From Coq Require Import Lia Permutation.
From Verif Require Import Py Iso IsoSpec Dec XmlUtils Imscp HttpCore HttpParams HttpHeaders HttpSpec.
From Verif Require Import HttpProofs HttpProofs2 HttpProofs3 HttpProofs4 HttpProofs5 HttpProofs6 HttpProofs7 HttpProofs8 HttpProofs9.
Open Scope Z_scope.

(** ** C64: versions and products *)
Theorem C64_version_order a b :
  (version_cmp a b < 0 <-> v_major a < v_major b \/ v_major a = v_major b /\ v_minor a < v_minor b) /\
  (version_cmp a b = 0 <-> a = b) /\
  (version_cmp a b > 0 <-> v_major b < v_major a \/ v_major a = v_major b /\ v_minor b < v_minor a).
Proof.
  destruct a as [a1 a2], b as [b1 b2]. unfold version_cmp. cbn [v_major v_minor].
  destruct (Z.ltb_spec a1 b1); [repeat split; try lia; intros [= -> ->]; lia|].
  destruct (Z.gtb_spec a1 b1); [repeat split; try lia; intros [= -> ->]; lia|].
  destruct (Z.ltb_spec a2 b2); [repeat split; try lia; intros [= -> ->]; lia|].
  destruct (Z.gtb_spec a2 b2); [repeat split; try lia; intros [= -> ->]; lia|].
  repeat split; try lia. intros _. f_equal; lia.
Qed.
Theorem C64_version_round_trip v : version_ok v -> version_FromString (version_str v) = Ok v.
Proof. apply version_round_trip. Qed.

(** Products are compared by token, then version: the components between dots, each made
    of numbers and other runs of characters. *)
Theorem C64_explode s : Explode s = Ok (map component (components s)).
Proof. apply Explode_spec. Qed.
Theorem C64_product_preorder : preorder product_cmp.
Proof. apply product_preorder. Qed.
Definition version_key (v : option str) : list (list vpart) :=
  match v with Some v => map component (components v) | None => [] end.
Theorem C64_product_equal t v t' v' : exists p p', ProductToken t v = Ok p /\ ProductToken t' v' = Ok p' /\
  (product_cmp p p' = Eq <-> t = t' /\ version_key v = version_key v') /\
  (t <> t' -> (product_cmp p p' = Lt <-> lex_lt Z.lt t t')).
Proof.
  assert (K : forall t v, ProductToken t v = Ok (mkProduct t v (version_key v))).
  { intros u [x|]; unfold ProductToken; [rewrite Explode_spec|]; reflexivity. }
  rewrite !K. do 2 eexists. split; [reflexivity|]. split; [reflexivity|]. split; [apply product_cmp_eq|].
  intros N. unfold product_cmp. cbn [p_token]. rewrite <- scmp_lt. destruct (scmp t t') eqn:E; [|tauto|tauto].
  apply scmp_eq in E. congruence.
Qed.
(** Versions of numbers are compared number by number; a longer one comes after. *)
Theorem C64_product_numbers t a b pa pb : Forall (fun n => 0 <= n) a -> Forall (fun n => 0 <= n) b ->
  ProductToken t (Some (dotted a)) = Ok pa -> ProductToken t (Some (dotted b)) = Ok pb ->
  (product_cmp pa pb = Lt <-> numbers_lt a b) /\ (product_cmp pa pb = Eq <-> a = b).
Proof.
  intros A B. unfold ProductToken. rewrite !Explode_spec, !components_dotted by assumption. cbn [bind].
  intros [= <-] [= <-]. unfold product_cmp. cbn [p_token p_exploded]. rewrite (proj2 (scmp_eq t t) eq_refl).
  apply items_cmp_numbers.
Qed.
(** A further component makes a version later. *)
Theorem C64_product_further t s r p p' : s <> [] -> last s 0 <> 46 -> r <> [] ->
  ProductToken t (Some s) = Ok p -> ProductToken t (Some (s ++ lit "." ++ r)) = Ok p' -> product_cmp p p' = Lt.
Proof.
  intros N L R. unfold ProductToken. rewrite !Explode_spec. cbn [bind]. intros [= <-] [= <-].
  change (s ++ lit "." ++ r) with (s ++ 46 :: r). rewrite components_app by assumption.
  unfold product_cmp. cbn [p_token p_exploded]. rewrite (proj2 (scmp_eq t t) eq_refl), map_app.
  rewrite (pre_opp items_cmp items_preorder (map component (components s) ++ map component (components r))).
  rewrite items_longer; [reflexivity|]. intros X. apply map_eq_nil in X. now apply (components_nonempty r R).
Qed.
(** A modifier after a number, or a number after a modifier, makes it earlier: 1.0b is
    before 1.0. *)
Theorem C64_product_modifier t s c d r p p' : digit c <> digit d -> c <> 46 -> ~ In 46 (d :: r) ->
  ProductToken t (Some (s ++ [c])) = Ok p -> ProductToken t (Some (s ++ c :: d :: r)) = Ok p' -> product_cmp p' p = Lt.
Proof.
  intros D C N. unfold ProductToken. rewrite !Explode_spec. cbn [bind]. intros [= <-] [= <-].
  destruct (components_modifier s c d r C N) as (l & q & E1 & E2). rewrite E1, E2.
  unfold product_cmp. cbn [p_token p_exploded]. rewrite (proj2 (scmp_eq t t) eq_refl), !map_app. cbn [map].
  rewrite items_cmp_last. destruct (component_longer q c d r D) as (ps & P & E). rewrite E. now rewrite item_longer.
Qed.
Theorem C64_product_round_trip t v p : is_token t -> (match v with Some v => is_token v | None => True end) ->
  ProductToken t v = Ok p -> product_FromString (product_str p) = Ok p.
Proof. apply product_round_trip. Qed.

Definition product_of (t : str) (v : option str) : product :=
  match ProductToken t v with Ok p => p | Err _ => mkProduct [] None [] end.
Example C64_ex_version : version_cmp (mkVersion 1 10) (mkVersion 1 9) = 1 /\ version_str (mkVersion 1 10) = lit "HTTP/1.10".
Proof. split; reflexivity. Qed.
Example C64_ex_product :
  product_cmp (product_of (lit "A") (Some (lit "1.0b"))) (product_of (lit "A") (Some (lit "1.0"))) = Lt /\
  product_cmp (product_of (lit "A") (Some (lit "1.9"))) (product_of (lit "A") (Some (lit "1.10"))) = Lt /\
  Explode (lit "2.b3") = Ok [[VNum 2]; [VNum (-1); VStr (lit "b"); VNum 3]] /\
  dotted [1; 10] = lit "1.10".
Proof. repeat split; reflexivity. Qed.
Example C64_ex_numbers : numbers_lt [1; 9] [1; 10]. Proof. apply lex_later, lex_here. lia. Qed.

(** ** C65: quoted strings *)
Theorem C65_decode s : DecodeQuotedString (QuoteString s true) = s.
Proof. apply decode_QuoteString. Qed.
(** What is written is a quoted string of the grammar that stands for s. *)
Theorem C65_grammar s : exists body, QuoteString s true = [34] ++ body ++ [34] /\ quoted body s.
Proof. rewrite QuoteString_true. exists (qbody s). split; [reflexivity|apply qbody_quoted]. Qed.
(** Reading any quoted string of the grammar gives the string it stands for. *)
Theorem C65_decode_any body s : quoted body s -> DecodeQuotedString ([34] ++ body ++ [34]) = s.
Proof. apply decode_quoted. Qed.
(** Quotes are left out only if the string is a token, or empty. *)
Theorem C65_unforced s : QuoteString s false = QuoteString s true \/ QuoteString s false = s /\ (s = [] \/ is_token s).
Proof. destruct (QuoteString_false s) as [[E T]|[E _]]; [right|left; exact E]. split; [exact E|]. destruct s; [now left|right; split; [discriminate|exact T]]. Qed.
(** The character parser stops right after the string; the word parser makes it one word,
    which is read as s. *)
Theorem C65_parse u s rest : octets s ->
  ParseQuotedString_c u (QuoteString s true ++ rest) = Ok (Some (QuoteString s true), rest).
Proof. apply ParseQuotedString_c_spec. Qed.
Theorem C65_word ig s : octets s -> exists w, WordParser ig (QuoteString s true) = Ok w /\ RequireQuotedString w = Ok (s, []).
Proof.
  intros O. exists [Some (QuoteString s true)]. split; [|apply RequireQuotedString_ok].
  replace (QuoteString s true) with (render [LQuo s]) at 1 by (unfold render; cbn; apply app_nil_r).
  rewrite WordParser_render by (cbn; tauto). reflexivity.
Qed.
Example C65_ex : QuoteString [97; 34; 92; 32; 13] false = [34; 97; 92; 34; 92; 92; 32; 92; 13; 34] /\ octets [97; 34; 92; 32; 13].
Proof. split; [reflexivity|]. repeat constructor; unfold octet; lia. Qed.
(** A string without its closing quote is accepted and loses a character. *)
Theorem C65_unterminated_refuted : exists s w, WordParser true ([34] ++ s) = Ok w /\ exists t, RequireQuotedString w = Ok (t, []) /\ t <> s.
Proof. exists (lit "abc"), [Some ([34] ++ lit "abc")]. split; [reflexivity|]. exists (lit "ab"). split; [reflexivity|discriminate]. Qed.

(** ** C108: media types and transfer encodings *)
Theorem C108_media_partial m : media_ok m -> exists m', media_FromString (media_str m) = Ok m' /\ same_media m' m.
Proof.
  intros H. eexists. split; [now apply media_round_trip|]. repeat split. cbn [m_params]. apply sort_perm.
Qed.
Theorem C108_range_partial m : media_ok m -> Forall (fun e => fst e <> lit "q") (m_params m) ->
  exists m', range_FromString (media_str m) = Ok m' /\ same_media m' m.
Proof. intros H Q. eexists. split; [now apply range_round_trip|]. repeat split. cbn [m_params]. apply sort_perm. Qed.
Theorem C108_encoding_partial e : encoding_ok e -> exists e', encoding_FromString (encoding_str e) = Ok e' /\
  te_token e' = te_token e /\ Permutation (te_params e') (te_params e).
Proof. intros H. eexists. split; [now apply encoding_round_trip|]. repeat split. cbn [te_params]. apply sort_perm. Qed.
Definition plain_media : media :=
  mkMedia (lit "text") (lit "plain") [(lit "charset", (lit "Charset", lit "utf-8")); (lit "a", (lit "A", lit "x y"))].
Lemma token_check s : negb (match s with [] => true | _ => false end) && forallb tokb s = true -> is_token s.
Proof. intros H. apply andb_true_iff in H as [A B]. apply tokb_token; [now destruct s|exact B]. Qed.
Lemma octets_check s : forallb (fun c => (0 <=? c) && (c <? 256)) s = true -> octets s.
Proof. intros H. apply Forall_forall. rewrite forallb_forall in H. intros c Hc. apply H in Hc. unfold octet. lia. Qed.
Lemma param_check n v : is_token n -> octets v -> v <> [] -> good_param (lower n, (n, v)).
Proof. intros A B C. repeat split; try assumption; apply A. Qed.
Lemma plain_media_ok : media_ok plain_media.
Proof.
  split; [apply (token_check (lit "text")); reflexivity|]. split; [apply (token_check (lit "plain")); reflexivity|].
  split; [reflexivity|]. split; [reflexivity|]. split.
  - constructor; [|constructor; [|constructor]].
    + apply (param_check (lit "Charset")); [apply token_check; reflexivity|apply octets_check; reflexivity|discriminate].
    + apply (param_check (lit "A")); [apply token_check; reflexivity|apply octets_check; reflexivity|discriminate].
  - cbn. constructor; [|constructor; [easy|constructor]]. intros [X|[]]. discriminate X.
Qed.
Example C108_ex : media_ok plain_media /\ media_str plain_media = lit "text/plain; A=""x y""; Charset=utf-8" /\
  encoding_ok (mkEncoding (lit "gzip") (m_params plain_media)).
Proof.
  split; [apply plain_media_ok|]. split; [reflexivity|]. destruct plain_media_ok as (_ & _ & _ & _ & G).
  split; [apply (token_check (lit "gzip")); reflexivity|]. split; [reflexivity|]. split; [exact G|discriminate].
Qed.
(** A parameter with an empty value is written without a value and not read back. *)
Theorem C108_empty_value_refuted : exists m, media_str m = lit "text/plain; a=" /\ media_FromString (media_str m) = Err BadSyntax.
Proof. exists (mkMedia (lit "text") (lit "plain") [(lit "a", (lit "a", []))]). split; reflexivity. Qed.

(** ** C109: entity tags and language tags *)
Theorem C109_entity_tag e : octets (e_tag e) -> etag_FromString (etag_str e) = Ok e.
Proof. apply etag_round_trip. Qed.
Theorem C109_language_tag l : l_primary l <> [] -> Forall subtag (l_primary l :: l_subtags l) -> lang_FromString (lang_str l) = Ok l.
Proof. apply lang_round_trip. Qed.
(** A range matches the tags that start with it, part by part, in any case. *)
Theorem C109_partial_match l r : PartialMatch l r = true <-> exists rest, l_tag l = r ++ rest.
Proof. apply PartialMatch_spec. Qed.
Theorem C109_language_order : preorder lang_cmp /\ forall a b, lang_cmp a b = Eq <-> l_tag a = l_tag b.
Proof. split; [apply (map_preorder l_tag), tag_preorder|intros a b; apply tag_cmp_eq]. Qed.
Example C109_ex : let l := mkLang (lit "en") [lit "US"; lit "x"] in
  lang_str l = lit "en-US-x" /\ PartialMatch l [lit "en"; lit "us"] = true /\ PartialMatch l [lit "e"] = false /\
  etag_str (mkEtag (lit "a b") true) = lit "W/""a b""".
Proof. repeat split; reflexivity. Qed.

(** ** C110: dates *)

(** Days are counted from 1 January of the year 1, a Monday; n is the number of the day. *)
Theorem C110_str y m d n h mi s : valid_ymd y m d -> gregorian n (y, m, d) -> clock_ok h mi s ->
  FullDate_str (day_time y m d h mi s) = Ok (rfc1123_date (weekday n) y m d h mi s).
Proof. intros V G C. now apply FullDate_str_ok. Qed.
Lemma weekday_range n : 1 <= weekday n <= 7. Proof. unfold weekday. pose proof (Z.mod_pos_bound (n - 1) 7). lia. Qed.
Theorem C110_rfc1123 y m d n h mi s : valid_ymd y m d -> gregorian n (y, m, d) -> clock_ok h mi s ->
  FromHTTPString (rfc1123_date (weekday n) y m d h mi s) = Ok (day_time y m d h mi s).
Proof. intros V G C. rewrite (parse1123 y m d n) by (assumption || apply weekday_range). now rewrite Z.eqb_refl. Qed.
Theorem C110_rfc850_partial y m d n h mi s : valid_ymd y m d -> gregorian n (y, m, d) -> clock_ok h mi s -> 1990 <= y <= 2089 ->
  FromHTTPString (rfc850_date (weekday n) y m d h mi s) = Ok (day_time y m d h mi s).
Proof. intros V G C R. rewrite (parse850 y m d n) by (assumption || apply weekday_range). now rewrite Z.eqb_refl. Qed.
Theorem C110_asctime y m d n h mi s : valid_ymd y m d -> gregorian n (y, m, d) -> clock_ok h mi s ->
  FromHTTPString (asctime_date (weekday n) y m d h mi s) = Ok (day_time y m d h mi s).
Proof. intros V G C. rewrite (parse_asctime y m d n) by (assumption || apply weekday_range). now rewrite Z.eqb_refl. Qed.
Theorem C110_round_trip y m d n h mi s : valid_ymd y m d -> gregorian n (y, m, d) -> clock_ok h mi s ->
  exists t, FullDate_str (day_time y m d h mi s) = Ok t /\ FromHTTPString t = Ok (day_time y m d h mi s).
Proof. intros V G C. eexists. split; [now apply (C110_str y m d n)|now apply C110_rfc1123]. Qed.
(** A date with another day of the week is refused. *)
Theorem C110_wrong_day y m d n wd h mi s : valid_ymd y m d -> gregorian n (y, m, d) -> clock_ok h mi s ->
  1 <= wd <= 7 -> wd <> weekday n ->
  FromHTTPString (rfc1123_date wd y m d h mi s) = Err BadSyntax /\
  (1990 <= y <= 2089 -> FromHTTPString (rfc850_date wd y m d h mi s) = Err BadSyntax) /\
  FromHTTPString (asctime_date wd y m d h mi s) = Err BadSyntax.
Proof.
  intros V G C R N. assert (E : (weekday n =? wd) = false) by lia.
  rewrite (parse1123 y m d n), (parse_asctime y m d n), E by assumption. repeat split. intros Y.
  now rewrite (parse850 y m d n), E by assumption.
Qed.
Example C110_ex : rfc1123_date 7 1994 11 6 8 49 37 = lit "Sun, 06 Nov 1994 08:49:37 GMT" /\
  FromHTTPString (lit "Sun, 06 Nov 1994 08:49:37 GMT") = Ok (day_time 1994 11 6 8 49 37) /\
  rfc850_date 7 1994 11 6 8 49 37 = lit "Sunday, 06-Nov-94 08:49:37 GMT" /\
  asctime_date 7 1994 11 6 8 49 37 = lit "Sun Nov  6 08:49:37 1994" /\ valid_ymd 1994 11 6 /\ clock_ok 8 49 37.
Proof. repeat split; try reflexivity; cbn; try lia. unfold clock_ok. lia. Qed.
(** Two-digit years are read as 1990 to 2089. *)
Theorem C110_rfc850_refuted : exists y m d h mi s wd,
  valid_ymd y m d /\ FromHTTPString (rfc1123_date wd y m d h mi s) = Ok (day_time y m d h mi s) /\
  FromHTTPString (rfc850_date wd y m d h mi s) <> Ok (day_time y m d h mi s).
Proof.
  exists 1989, 11, 6, 8, 49, 37, 1. split; [repeat split; cbn; lia|]. split; [reflexivity|]. vm_compute. discriminate.
Qed.

(** ** C111: negotiation of media types *)
Theorem C111_select l cs : Forall range_ok l -> Forall type_ok cs -> exists Q,
  (forall m, In m cs -> media_quality l m (Q m)) /\ negotiated Q cs (SelectType (AcceptList l) cs).
Proof.
  intros F T. exists (QM l). split; [|apply SelectType_negotiated]. intros m Hm. apply QM_quality; [exact F|].
  rewrite Forall_forall in T. now apply T.
Qed.
(** The order of the header does not matter. *)
Theorem C111_order l l' cs : Permutation l l' -> SelectType (AcceptList l) cs = SelectType (AcceptList l') cs.
Proof. apply SelectType_perm. Qed.
Theorem C111_match r m : NoDup (map fst (m_params m)) -> MatchMediaType r m = true <-> covers r m.
Proof. apply match_covers. Qed.
Theorem C111_preorder : preorder accept_cmp. Proof. apply accept_preorder. Qed.
Definition item (t u : string) (q : Z) : accept := mkAccept (mkMedia (lit t) (lit u) []) q [].
Example C111_ex :
  let l := [item "*" "*" 100; item "text" "*" 500; item "text" "html" 200] in
  let html := mkMedia (lit "text") (lit "html") [] in let plain := mkMedia (lit "text") (lit "plain") [] in
  let png := mkMedia (lit "image") (lit "png") [] in
  SelectType (AcceptList l) [html; png; plain] = Some plain /\ Forall range_ok l /\ Forall type_ok [html; png; plain] /\
  media_quality l html 200.
Proof.
  cbv zeta. split; [reflexivity|]. split; [|split].
  - repeat constructor; unfold wf_range; cbn; intros X; solve [discriminate X|reflexivity|easy].
  - repeat constructor.
  - right. exists (item "text" "html" 200). split; [cbn; tauto|]. split.
    + right. split; [reflexivity|]. right. split; [reflexivity|]. easy.
    + split; [reflexivity|]. intros b [<-|[<-|[<-|[]]]] _; unfold more_specific;
      repeat match goal with |- context [breadth ?x] => let v := eval vm_compute in (breadth x) in change (breadth x) with v end;
      cbn; (split; [lia|]); intros; lia || discriminate.
Qed.
(** Parameter names are compared as written: of two ranges a and b which match the same
    types, one used for the quality is not the better. *)
Theorem C111_name_case_refuted : exists a b x y, a_q a < 500 < a_q b /\
  (forall m, MatchMediaType (a_range a) m = MatchMediaType (a_range b) m) /\ MatchMediaType (a_range b) y = true /\
  SelectType (AcceptList [b; mkAccept x 500 []]) [x; y] = Some y /\
  SelectType (AcceptList [a; b; mkAccept x 500 []]) [x; y] = Some x.
Proof.
  exists (mkAccept (mkMedia (lit "a") (lit "b") [(lit "n", (lit "N", lit "1"))]) 200 []),
         (mkAccept (mkMedia (lit "a") (lit "b") [(lit "n", (lit "n", lit "1"))]) 900 []),
         (mkMedia (lit "x") (lit "y") []),
         (mkMedia (lit "a") (lit "b") [(lit "n", (lit "n", lit "1"))]).
  repeat split; reflexivity.
Qed.
(** A range */html, which the grammar does not allow, matches everything. *)
Theorem C111_star_subtype_refuted : exists r m, m_sub r <> lit "*" /\ lower (m_sub r) <> lower (m_sub m) /\ MatchMediaType r m = true.
Proof. exists (mkMedia (lit "*") (lit "html") []), (mkMedia (lit "image") (lit "png") []). repeat split; discriminate. Qed.

(** ** C112: negotiation of tokens, character sets, encodings and languages *)
Theorem C112_token l cs : exists Q,
  (forall t, token_quality l (fun _ => 0) t (Q t)) /\ negotiated Q cs (SelectToken (AcceptTokenList l) cs).
Proof. exists (QT l (fun _ => 0)). split; [apply QT_quality|apply SelectToken_negotiated]. Qed.
Theorem C112_charset l cs : exists Q,
  (forall t, token_quality l charset_unlisted t (Q t)) /\ negotiated Q cs (SelectCharset (AcceptTokenList l) cs).
Proof. exists (QT l charset_unlisted). split; [apply QT_quality|apply SelectCharset_negotiated]. Qed.
(** An identity encoding that is not listed is taken if nothing listed will do. *)
Theorem C112_encoding l cs : exists Q,
  (forall t, token_quality l (fun _ => 0) t (Q t)) /\
  match SelectEncoding (AcceptTokenList l) cs with
  | Some c => chosen Q cs c \/ Forall (fun x => Q x <= 0) cs /\ In c cs /\ free_identity l c
  | None => Forall (fun x => Q x <= 0) cs /\ Forall (fun x => ~ free_identity l x) cs
  end.
Proof. exists (QT l (fun _ => 0)). split; [apply QT_quality|apply SelectEncoding_spec]. Qed.
(** The quality is determined by the items, in whatever order. *)
Theorem C112_order l l' u t q q' : Permutation l l' -> token_quality l u t q -> token_quality l' u t q' -> q = q'.
Proof. apply token_quality_unique. Qed.
Theorem C112_language l cs : exists Q,
  (forall t, language_quality l t (Q t)) /\ negotiated Q cs (SelectLanguage (AcceptLanguageList l) cs).
Proof. exists (QL l). split; [apply QL_quality|apply SelectLanguage_negotiated]. Qed.
Definition tok (t : string) (q : Z) : atoken := mkAtoken (lit t) q.
Example C112_ex :
  SelectToken (AcceptTokenList [tok "*" 100; tok "b" 300; tok "a" 0]) [lit "A"; lit "c"; lit "B"] = Some (lit "B") /\
  SelectCharset (AcceptTokenList [tok "utf-8" 900]) [lit "utf-8"; lit "ISO-8859-1"] = Some (lit "ISO-8859-1") /\
  SelectEncoding (AcceptTokenList [tok "gzip" 0]) [lit "gzip"; lit "identity"] = Some (lit "identity") /\
  SelectEncoding (AcceptTokenList [tok "*" 0]) [lit "identity"] = None /\
  SelectLanguage (AcceptLanguageList [tok "en" 800; tok "en-GB" 200; tok "*" 300]) [mkLang (lit "en") [lit "gb"]; mkLang (lit "fr") []]
  = Some (mkLang (lit "fr") []).
Proof. repeat split; reflexivity. Qed.
(** For languages the first of equal items counts, not the best. *)
Theorem C112_language_order_refuted : exists l l' cs, Permutation l l' /\
  SelectLanguage (AcceptLanguageList l) cs <> SelectLanguage (AcceptLanguageList l') cs.
Proof.
  exists [tok "en" 200; tok "en" 900; tok "fr" 500], [tok "en" 900; tok "en" 200; tok "fr" 500], [mkLang (lit "en") []; mkLang (lit "fr") []].
  split; [apply perm_swap|]. vm_compute. discriminate.
Qed.
(** With tokens, no acceptable language gives the string None. *)
Theorem C112_language_none_refuted : exists l cs, SelectLanguageToken (AcceptLanguageList l) cs = Ok (lit "None") /\ ~ In (lit "None") cs.
Proof. exists [tok "en" 1000], [lit "fr"]. split; [reflexivity|]. intros [X|[]]. discriminate X. Qed.

(** ** C113: Accept headers are read back *)
Theorem C113_quality q : 0 <= q <= 1000 -> forall w, ParseQualityValue (Some (q_str q) :: w) = Ok (Some q, w).
Proof. intros H. now apply q_str_ok. Qed.
Theorem C113_accept_item a : accept_ok a -> exists a', accept_FromString (accept_str a) = Ok a' /\ same_accept a' a.
Proof.
  intros H. eexists. split; [now apply accept_round_trip|]. repeat split; cbn; apply sort_perm.
Qed.
Theorem C113_accept l l0 : l = AcceptList l0 -> l <> [] -> Forall accept_ok l ->
  exists l', acceptlist_FromString (acceptlist_str l) = Ok l' /\ Forall2 same_accept l' l.
Proof.
  intros E N F. eexists. split; [now apply (acceptlist_round_trip_sorted l l0)|].
  clear. induction l as [|a l IH]; constructor; [repeat split; cbn; apply sort_perm|exact IH].
Qed.
Theorem C113_tokens l l0 : l = AcceptTokenList l0 -> Forall atoken_ok l -> atokens_FromString (atokens_str l) = Ok l.
Proof.
  intros -> F. unfold atokens_FromString. rewrite token_items_ok by exact F. cbn [bind]. f_equal.
  apply (sort_sort atoken_cmp atoken_preorder).
Qed.
Theorem C113_languages l l0 : l = AcceptLanguageList l0 -> Forall atoken_ok l -> languages_FromString (atokens_str l) = Ok l.
Proof.
  intros -> F. unfold languages_FromString. rewrite token_items_ok by exact F. cbn [bind]. f_equal.
  apply (sort_sort language_cmp language_preorder).
Qed.
Theorem C113_token a : atoken_ok a -> atoken_FromString (atoken_str a) = Ok a.
Proof. apply atoken_round_trip. Qed.
Example C113_ex : let l := AcceptList [item "text" "*" 500; mkAccept plain_media 250 [(lit "x", (lit "x", lit "1"))]] in
  acceptlist_str l = lit "text/plain; A=""x y""; Charset=utf-8; q=0.25; x=1, text/*; q=0.5" /\ Forall accept_ok l.
Proof.
  cbv zeta. split; [reflexivity|].
  assert (A : accept_ok (mkAccept plain_media 250 [(lit "x", (lit "x", lit "1"))])).
  { split; [apply plain_media_ok|]. split; [repeat constructor; discriminate|]. split; [cbn; lia|]. split.
    - constructor; [|constructor]. apply (param_check (lit "x")); [apply token_check; reflexivity|apply octets_check; reflexivity|discriminate].
    - cbn. constructor; [easy|constructor]. }
  assert (B : accept_ok (item "text" "*" 500)).
  { split; [|split; [constructor|split; [cbn; lia|split; constructor]]].
    split; [apply (token_check (lit "text")); reflexivity|]. split; [apply (token_check (lit "*")); reflexivity|].
    split; [reflexivity|]. split; [reflexivity|]. split; constructor. }
  change (AcceptList _) with [mkAccept plain_media 250 [(lit "x", (lit "x", lit "1"))]; item "text" "*" 500].
  constructor; [exact A|constructor; [exact B|constructor]].
Qed.

(** ** C114: content ranges *)
Theorem C114_round_trip r : crange_ok r -> exists s, crange_str r = Ok s /\ crange_FromString s = Ok r.
Proof. apply crange_round_trip. Qed.
(** Valid: known bounds in order, within the total if that is known.  Then the length is
    the number of bytes from the first to the last. *)
Theorem C114_valid r : crange_valid r = true <-> exists a b, cr_first r = Some a /\ cr_last r = Some b /\ 0 <= a <= b /\
  (forall n, cr_total r = Some n -> b < n).
Proof.
  destruct r as [[a|] [b|] t]; unfold crange_valid; cbn [cr_first cr_last cr_total].
  - split.
    + intros H. rewrite !andb_true_iff in H. destruct H as [[A B] C]. exists a, b. repeat split; try lia. intros n ->. lia.
    + intros (a' & b' & [= <-] & [= <-] & H & T). rewrite !andb_true_iff. repeat split; try lia. destruct t as [n|]; [|reflexivity].
      specialize (T n eq_refl). lia.
  - split; [discriminate|]. now intros (a' & b' & _ & X & _).
  - split; [discriminate|]. now intros (a' & b' & X & _).
  - split; [discriminate|]. now intros (a' & b' & X & _).
Qed.
Theorem C114_length r : crange_valid r = true -> exists a b, cr_first r = Some a /\ cr_last r = Some b /\ crange_len r = Ok (b - a + 1) /\
  forall n, crange_len r = Ok n -> 0 < n /\ (forall t, cr_total r = Some t -> n <= t).
Proof.
  intros H. apply C114_valid in H as (a & b & A & B & L & T). exists a, b. unfold crange_len. rewrite A, B.
  replace (b - a + 1 >? 0) with true by lia. repeat split.
  - injection H as <-. lia.
  - intros t Ht. injection H as <-. specialize (T t Ht). lia.
Qed.
Example C114_ex : let r := mkRange (Some 0) (Some 499) (Some 1234) in
  crange_str r = Ok (lit "bytes 0-499/1234") /\ crange_valid r = true /\ crange_len r = Ok 500 /\ crange_ok r /\
  crange_str (mkRange None None None) = Ok (lit "bytes */*").
Proof. repeat split; cbn; lia || reflexivity. Qed.

(** ** C115: methods allowed and ranges accepted *)
Theorem C115_allow args : Forall is_token args -> allow_FromString (allow_str (Allow args)) = Ok (Allow args).
Proof. apply allow_round_trip. Qed.
Theorem C115_allowed args m : Allowed (Allow args) m = true <-> exists a, In a args /\ upper a = upper m.
Proof. apply Allowed_spec. Qed.
(** Equality does not depend on order or case. *)
Theorem C115_allow_equal a b : allow_cmp (Allow a) (Allow b) = Eq <-> Permutation (map upper a) (map upper b).
Proof. apply sorted_eq. Qed.
Theorem C115_ranges args r : Forall is_token args -> AcceptRanges args = Ok r -> ranges_FromString (ranges_str r) = Ok r.
Proof. apply ranges_round_trip. Qed.
(** none stands alone *)
Theorem C115_none args : (exists r, AcceptRanges args = Ok r) <-> (In (lit "none") (map lower args) -> length args = 1%nat).
Proof.
  unfold AcceptRanges. destruct (has (lit "none") (map lower args)) eqn:H.
  - apply has_In in H. destruct args as [|a [|b l]]; cbn [map length] in *.
    + easy.
    + split; [reflexivity|]. intros _. now eexists.
    + split; [now intros [r X]|]. intros X. specialize (X H). discriminate.
  - split; [|intros _; now eexists]. intros _ X. apply has_In in X. congruence.
Qed.
Theorem C115_ranges_equal a b ra rb : AcceptRanges a = Ok ra -> AcceptRanges b = Ok rb -> r_ranges ra <> [] -> r_ranges rb <> [] ->
  ranges_cmp ra rb = Eq <-> Permutation (map lower a) (map lower b).
Proof.
  unfold AcceptRanges. destruct (has _ (map lower a)).
  { destruct (map lower a) as [|x [|y l]]; try discriminate. now intros [= <-]. }
  destruct (has _ (map lower b)).
  { destruct (map lower b) as [|x [|y l]]; try discriminate. now intros _ [= <-]. }
  intros [= <-] [= <-] _ _. apply sorted_eq.
Qed.
Example C115_ex : Allowed (Allow [lit "Get"; lit "HEAD"]) (lit "get") = true /\ allow_str (Allow [lit "Get"; lit "HEAD"]) = lit "GET, HEAD" /\
  AcceptRanges [lit "Bytes"] = Ok (mkRanges [lit "Bytes"] [lit "bytes"]) /\ AcceptRanges [lit "bytes"; lit "None"] = Err BadSyntax /\
  is_token (lit "Get").
Proof. repeat split; try reflexivity; try discriminate. apply (token_check (lit "Get")). reflexivity. Qed.

(** ** C116: Cache-Control *)

Lemma cache_values args c k : CacheControl args = Ok c -> assoc (lower k) (cc_values c) = last_value (lower k) args.
Proof.
  unfold CacheControl. destruct args as [|e l]; [discriminate|]. intros E.
  assert (cc_values c = fold_left (fun d a => cset (lower (fst a)) (snd a) d) (e :: l) []) as -> by (injection E as <-; reflexivity).
  rewrite cache_fold. now destruct (last_value (lower k) (e :: l)).
Qed.
(** The value of a directive is the last one given; names are not case sensitive. *)
Theorem C116_value args c k v : CacheControl args = Ok c -> cache_get c k = Ok v <->
  exists a n b, args = a ++ (n, v) :: b /\ lower n = lower k /\ Forall (fun e => lower (fst e) <> lower k) b.
Proof.
  intros E. rewrite <- last_value_In. unfold cache_get. rewrite (cache_values _ _ _ E).
  destruct (last_value (lower k) args); split; congruence.
Qed.
Theorem C116_contains args c k : CacheControl args = Ok c -> cache_contains c k = true <-> exists n v, In (n, v) args /\ lower n = lower k.
Proof.
  intros E. assert (X : cache_contains c k = true <-> exists v, last_value (lower k) args = Some v).
  { unfold cache_contains. rewrite (cache_values _ _ _ E).
    destruct (last_value (lower k) args); split; try easy; [intros _; now eexists|now intros [v X]]. }
  rewrite X. clear X. split.
  - intros [v H]. apply last_value_In in H as (a & n & b & -> & Hn & _). exists n, v. split; [|exact Hn]. apply in_app_iff. right. now left.
  - intros (n & v & I0 & Hn). clear E. induction args as [|[m w] l IH]; [easy|]. cbn [last_value]. destruct I0 as [X|I0].
    + injection X as -> ->. destruct (last_value (lower k) l); [now eexists|]. rewrite <- Hn, str_eqb_refl. now eexists.
    + destruct (IH I0) as [v' ->]. now eexists.
Qed.
Theorem C116_str_partial args c : CacheControl args = Ok c -> NoDup (map (fun e => lower (fst e)) args) ->
  cache_str c = Ok (join (lit ", ") (map (fun e => cache_text (fst e) (snd e)) args)).
Proof. apply cache_str_ok. Qed.
Example C116_ex : let args := [(lit "No-Cache", CTuple [lit "a"; lit "b"]); (lit "max-age", CSimple (lit "5")); (lit "public", CNone)] in
  exists c, CacheControl args = Ok c /\ cache_str c = Ok (lit "no-cache=""a, b"", max-age=5, public") /\
  cache_get c (lit "Max-Age") = Ok (CSimple (lit "5")).
Proof. eexists. repeat split; reflexivity. Qed.
(** A directive given twice is written with its last value twice. *)
Theorem C116_str_refuted : exists args c, CacheControl args = Ok c /\
  cache_str c <> Ok (join (lit ", ") (map (fun e => cache_text (fst e) (snd e)) args)).
Proof.
  exists [(lit "a", CSimple (lit "1")); (lit "a", CSimple (lit "2"))]. eexists. split; [reflexivity|]. vm_compute. discriminate.
Qed.
(** No header is ever read. *)
Theorem C116_read_refuted : (forall s, exists e, cache_FromString s = Err e) /\ cache_FromString (lit "no-cache") = Err AttributeError.
Proof. split; [|reflexivity]. intros s. unfold cache_FromString. destruct (WordParser true s); now eexists. Qed.

(** ** C117: malformed values raise SyntaxError *)
Theorem C117_values_partial s : Forall plain_char s ->
  syntax_only (media_FromString s) /\ syntax_only (encoding_FromString s) /\ syntax_only (product_FromString s) /\
  syntax_only (lang_FromString s) /\ syntax_only (etag_FromString s) /\ syntax_only (range_FromString s) /\
  syntax_only (allow_FromString s) /\ syntax_only (ranges_FromString s) /\ syntax_only (crange_FromString s).
Proof.
  intros F. split; [now apply media_so|]. split; [now apply encoding_so|]. split; [now apply product_so|]. split; [now apply lang_so|].
  split; [now apply etag_so|]. split; [now apply range_so|]. split; [now apply allow_so|]. split; [now apply ranges_so|now apply crange_so].
Qed.
Example C117_ex : Forall plain_char (lit "text/; x") /\ media_FromString (lit "text/; x") = Err BadSyntax.
Proof. split; [|reflexivity]. repeat constructor; cbn; lia. Qed.
Theorem C117_version_refuted : version_FromString (lit "HTTP/1") = Err NameError. Proof. reflexivity. Qed.
Theorem C117_backslash_refuted : media_FromString ([34; 92]) = Err TypeError. Proof. reflexivity. Qed.
Theorem C117_comment_refuted : product_FromString (lit "(a") = Err ValueError. Proof. reflexivity. Qed.
(** The word parser never gets past a control character: no number of steps is enough. *)
Theorem C117_control_refuted s f ig : word_loop f ig (1 :: s) = Err OutOfFuel.
Proof.
  induction f as [|f IH]; [reflexivity|]. rewrite word_loop_step by discriminate.
  assert (E : forall n, skip_lws n (1 :: s) = (false, 1 :: s)) by (intros [|n]; [|destruct s]; reflexivity). rewrite E. clear E.
  change (IsSEPARATOR 1) with false. change (ParseToken_c (1 :: s)) with (@None str, 1 :: s). cbn [bind]. now rewrite IH.
Qed.

Print Assumptions C64_product_equal.
Print Assumptions C64_product_modifier.
Print Assumptions C65_word.
Print Assumptions C108_media_partial.
Print Assumptions C110_asctime.
Print Assumptions C111_select.
Print Assumptions C112_encoding.
Print Assumptions C112_language.
Print Assumptions C113_accept.
Print Assumptions C114_round_trip.
Print Assumptions C115_ranges.
Print Assumptions C116_value.
Print Assumptions C117_values_partial.

Print Assumptions C108_empty_value_refuted.
Print Assumptions C108_encoding_partial.
Print Assumptions C108_range_partial.
Print Assumptions C109_entity_tag.
Print Assumptions C109_language_order.
Print Assumptions C109_language_tag.
Print Assumptions C109_partial_match.
Print Assumptions C110_rfc1123.
Print Assumptions C110_rfc850_partial.
Print Assumptions C110_rfc850_refuted.
Print Assumptions C110_round_trip.
Print Assumptions C110_str.
Print Assumptions C110_wrong_day.
Print Assumptions C111_match.
Print Assumptions C111_name_case_refuted.
Print Assumptions C111_order.
Print Assumptions C111_preorder.
Print Assumptions C111_star_subtype_refuted.
Print Assumptions C112_charset.
Print Assumptions C112_language_none_refuted.
Print Assumptions C112_language_order_refuted.
Print Assumptions C112_order.
Print Assumptions C112_token.
Print Assumptions C113_accept_item.
Print Assumptions C113_languages.
Print Assumptions C113_quality.
Print Assumptions C113_token.
Print Assumptions C113_tokens.
Print Assumptions C114_length.
Print Assumptions C114_valid.
Print Assumptions C115_allow.
Print Assumptions C115_allow_equal.
Print Assumptions C115_allowed.
Print Assumptions C115_none.
Print Assumptions C115_ranges_equal.
Print Assumptions C116_contains.
Print Assumptions C116_read_refuted.
Print Assumptions C116_str_partial.
Print Assumptions C116_str_refuted.
Print Assumptions C117_backslash_refuted.
Print Assumptions C117_comment_refuted.
Print Assumptions C117_control_refuted.
Print Assumptions C117_version_refuted.
Print Assumptions C64_explode.
Print Assumptions C64_product_further.
Print Assumptions C64_product_numbers.
Print Assumptions C64_product_preorder.
Print Assumptions C64_product_round_trip.
Print Assumptions C64_version_order.
Print Assumptions C64_version_round_trip.
Print Assumptions C65_decode.
Print Assumptions C65_decode_any.
Print Assumptions C65_grammar.
Print Assumptions C65_parse.
Print Assumptions C65_unforced.
Print Assumptions C65_unterminated_refuted.
