(** Proofs about challenges: what is written and what is read of it. *)
From Coq Require Import Lia Zify.
From Verif Require Import Py Iso Dec XmlUtils Imscp HttpCore HttpParams HttpHeaders HttpConn HttpSpec HttpProofs HttpProofs2 HttpProofs4 HttpAuth HttpAuthSpec HttpAuthProofs.
From Verif Require XsdProofs2.
Open Scope Z_scope.

Definition lexv (v : str) (q : bool) : lex := if q then LQuo v else lexval v.
Definition lexp (p : aparam) : list lex := let '(n, v, q) := p in [LTok n; LSep 61; lexv v q].
Fixpoint lexps (l : list aparam) : list lex :=
  match l with [] => [] | [p] => lexp p | p :: l' => lexp p ++ LSep 44 :: LSp :: lexps l' end.
Definition lexch (s : str) (l : list aparam) : list lex := LTok s :: LSp :: lexps l.
Definition rd (p : aparam) : aparam := let '(n, v, q) := p in (n, v, q || snd (quote_loop v false)).

Lemma lexv_cases v q : octets v -> v <> [] \/ q = true ->
  (lexv v q = LTok v /\ is_token v /\ QuoteString v q = v /\ q || snd (quote_loop v false) = false) \/
  (lexv v q = LQuo v /\ QuoteString v q = QuoteString v true /\ q || snd (quote_loop v false) = true /\ (q = true \/ ~ is_token v)).
Proof.
  intros O N. unfold lexv. destruct q; cbn [orb]; [right; tauto|]. destruct N as [N|]; [|discriminate].
  unfold lexval. pose proof (quote_false v) as Q. destruct (QuoteString_false v) as [[E T]|[E T]].
  - left. replace (snd (quote_loop v false)) with false by (symmetry; now apply Q). repeat split; assumption.
  - right. assert (F : snd (quote_loop v false) = true).
    { destruct (snd (quote_loop v false)); [reflexivity|]. exfalso. now apply T, Q. }
    rewrite F. repeat split; [exact E|]. right. intros [_ X]. contradiction.
Qed.
Lemma rd_read_as p : good_aparam p -> read_as p (rd p).
Proof.
  destruct p as [[n v] q]. intros (T & O & N). cbn. split; [reflexivity|]. split; [reflexivity|].
  destruct (lexv_cases v q O N) as [(_ & T1 & _ & E)|(_ & _ & -> & H)]; [|tauto]. rewrite E. apply orb_false_iff in E as [-> _].
  split; [discriminate|]. intros [X|H]; [discriminate|contradiction].
Qed.
Lemma rd_name p : name_of (rd p) = name_of p. Proof. now destruct p as [[n v] q]. Qed.

Lemma lexp_ok p b : good_aparam p -> lex_ok b -> (match b with LTok _ :: _ => False | _ => True end) -> lex_ok (lexp p ++ b).
Proof.
  destruct p as [[n v] q]. intros (T & O & N) B R. cbn [lexp app lex_ok]. split; [exact T|]. split; [exact I|]. split; [apply single61|].
  destruct (lexv_cases v q O N) as [(-> & Tv & _)|(-> & _)]; cbn [lex_ok]; [|now split]. split; [exact Tv|]. now split.
Qed.
Lemma lexps_starts p l : exists r, lexps (p :: l) = LTok (name_of p) :: r.
Proof. destruct p as [[n v] q]. destruct l; cbn [lexps lexp app name_of fst]; eauto. Qed.
Lemma good_name p : good_aparam p -> is_token (name_of p).
Proof. destruct p as [[n v] q]. intros H. apply H. Qed.
Lemma lexps_ok l b : Forall good_aparam l -> lex_ok b -> (match b with LTok _ :: _ => False | _ => True end) -> lex_ok (lexps l ++ b).
Proof.
  intros H B R. induction H as [|p l Hp H IH]; [exact B|]. destruct l as [|p' l].
  - cbn [lexps]. now apply lexp_ok.
  - cbn [lexps]. rewrite <- app_assoc. apply lexp_ok; [exact Hp| |exact I]. cbn [app lex_ok]. split; [apply single44|].
    split; [|exact IH]. destruct (lexps_starts p' l) as (r & E). cbn [lexps] in E. rewrite E. exact I.
Qed.
Lemma lexp_render p : good_aparam p -> render (lexp p) = param_str p.
Proof.
  destruct p as [[n v] q]. intros (T & O & N). unfold lexp, param_str, render. cbn [map concat].
  destruct (lexv_cases v q O N) as [(-> & _ & -> & _)|(-> & -> & _)]; cbn [render1]; rewrite app_nil_r; reflexivity.
Qed.
Lemma lexps_render l : Forall good_aparam l -> render (lexps l) = join_comma (map param_str l).
Proof.
  induction 1 as [|p l Hp H IH]; [reflexivity|]. destruct l as [|p' l]; cbn [lexps map join_comma]; [now apply lexp_render|].
  rewrite render_app, (lexp_render p Hp). cbn [lexps map] in IH. rewrite !render_cons, IH. reflexivity.
Qed.

(** ** One parameter *)
Definition valword (v : str) (q : bool) : str := render1 (lexv v q).
Lemma lexp_words ig p : wordsof ig (lexp p) = [Some (name_of p); Some [61]; Some (valword (value_of p) (snd p))].
Proof.
  destruct p as [[n v] q]. unfold valword, lexp, lexv, lexval, name_of, value_of. cbn [fst snd].
  destruct q; [reflexivity|]. destruct (snd (quote_loop v false)); reflexivity.
Qed.
Lemma param_of_ok ig p w : good_aparam p -> param_of (wordsof ig (lexp p) ++ w) = Ok (Some (rd p), w).
Proof.
  intros G. rewrite lexp_words. destruct p as [[n v] q]. cbn [name_of value_of fst snd app]. destruct G as (T & O & N).
  unfold param_of, ParseToken. rewrite IsToken_tok by exact T. cbn [cWord next tl].
  rewrite ParseSP_sep by discriminate. rewrite RequireSeparator_ok. cbn [bind].
  unfold valword, rd. destruct (lexv_cases v q O N) as [(-> & Tv & _ & ->)|(-> & _ & -> & _)]; cbn [render1].
  - rewrite ParseSP_tok by exact Tv. rewrite IsToken_tok, RequireToken_tok by exact Tv. reflexivity.
  - rewrite ParseSP_quo, IsToken_quo, RequireQuotedString_ok. reflexivity.
Qed.
Lemma param_of_token t t' w : is_token t -> is_token t' -> param_of (Some t :: Some t' :: w) = Err BadSyntax.
Proof.
  intros T T'. unfold param_of, ParseToken. rewrite IsToken_tok by exact T. cbn [cWord next tl]. rewrite ParseSP_tok by exact T'.
  unfold RequireSeparator. rewrite is_sep_tok; [reflexivity|exact T'|]. unfold separator. cbn [In]. lia.
Qed.
Lemma cWord_some x w : cWord (Some x :: w) = Some x. Proof. reflexivity. Qed.

(** ** The parameters, where spaces are ignored *)
Lemma lexps_words p p' l : wordsof true (lexps (p :: p' :: l)) = wordsof true (lexp p) ++ Some [44] :: wordsof true (lexps (p' :: l)).
Proof. cbn [lexps]. rewrite wordsof_app. reflexivity. Qed.
Lemma loop_end : forall l f acc, Forall good_aparam l -> (length l <= f)%nat ->
  challenge_loop (S f) acc (wordsof true (lexps l)) = Ok (acc ++ map rd l, []).
Proof.
  induction l as [|p l IH]; intros f acc H F.
  - cbn. now rewrite app_nil_r.
  - inversion H as [|? ? Hp Hl]; subst. destruct l as [|p' l].
    + cbn [lexps]. cbn [challenge_loop]. pose proof (param_of_ok true p [] Hp) as P. rewrite app_nil_r in P. rewrite P.
      rewrite lexp_words, cWord_some. cbn [bind]. rewrite ParseSP_nil, ParseSeparator_nil. reflexivity.
    + rewrite lexps_words. cbn [challenge_loop]. rewrite (param_of_ok true p _ Hp). rewrite lexp_words. cbn [app]. rewrite cWord_some. cbn [bind].
      rewrite ParseSP_sep by discriminate. rewrite ParseSeparator_ok. destruct f as [|f]; [cbn in F; lia|].
      rewrite IH; [|exact Hl|cbn in *; lia]. cbn [map]. now rewrite <- app_assoc.
Qed.
Lemma loop_more : forall l f acc t t' w, l <> [] -> Forall good_aparam l -> (length l <= f)%nat -> is_token t -> is_token t' ->
  challenge_loop (S f) acc (wordsof true (lexps l) ++ Some [44] :: Some t :: Some t' :: w) = Err BadSyntax.
Proof.
  induction l as [|p l IH]; intros f acc t t' w N H F T T'; [easy|].
  inversion H as [|? ? Hp Hl]; subst. destruct f as [|f]; [cbn in F; lia|]. destruct l as [|p' l].
  - cbn [lexps]. cbn [challenge_loop]. rewrite (param_of_ok true p _ Hp).
    rewrite lexp_words. cbn [app]. rewrite cWord_some. cbn [bind]. rewrite ParseSP_sep by discriminate. rewrite ParseSeparator_ok.
    rewrite cWord_some, param_of_token by assumption. reflexivity.
  - rewrite lexps_words, <- app_assoc. cbn [app]. cbn [challenge_loop]. rewrite (param_of_ok true p _ Hp). rewrite lexp_words. cbn [app]. rewrite cWord_some. cbn [bind].
    rewrite ParseSP_sep by discriminate. rewrite ParseSeparator_ok. apply IH; [discriminate|exact Hl|cbn in *; lia|exact T|exact T'].
Qed.
Lemma lexps_length l : (length l <= length (wordsof true (lexps l)))%nat.
Proof.
  induction l as [|p l IH]; [cbn; lia|]. destruct l as [|p' l].
  - cbn [lexps]. rewrite lexp_words. cbn. lia.
  - rewrite lexps_words, app_length. rewrite lexp_words. cbn [length] in *. lia.
Qed.

(** ** Whole challenges *)
Lemma lexch_words s l : wordsof true (lexch s l) = Some s :: wordsof true (lexps l). Proof. reflexivity. Qed.
Lemma ParseSP_lexps l : Forall good_aparam l -> ParseSP (wordsof true (lexps l)) = wordsof true (lexps l).
Proof.
  destruct 1 as [|p l Hp H]; [reflexivity|]. destruct (lexps_starts p l) as (r & ->). rewrite wordsof_cons. cbn [word1 render1 app].
  now apply ParseSP_tok, good_name.
Qed.
Lemma RequireChallenge_read s l : is_token s -> Forall good_aparam l -> RequireChallenge (wordsof true (lexch s l)) =
  if str_eqb (lower s) (lit "basic") then Ok (BasicChallenge (map rd l), [])
  else match map rd l with [] => Err TypeError | _ :: l' => Ok (Challenge None l', []) end.
Proof.
  intros T H. rewrite lexch_words. unfold RequireChallenge. rewrite ParseSP_tok, RequireToken_tok by exact T. cbn [bind].
  rewrite ParseSP_lexps by exact H. rewrite loop_end; [|exact H|apply lexps_length]. cbn [bind app]. reflexivity.
Qed.
Lemma RequireChallenge_more s l t t' w : is_token s -> l <> [] -> Forall good_aparam l -> is_token t -> is_token t' ->
  RequireChallenge (wordsof true (lexch s l) ++ Some [44] :: Some t :: Some t' :: w) = Err BadSyntax.
Proof.
  intros T N H T1 T2. rewrite lexch_words. cbn [app]. unfold RequireChallenge. rewrite ParseSP_tok, RequireToken_tok by exact T. cbn [bind].
  assert (E : ParseSP (wordsof true (lexps l) ++ Some [44] :: Some t :: Some t' :: w) = wordsof true (lexps l) ++ Some [44] :: Some t :: Some t' :: w).
  { destruct H as [|p l Hp H]; [easy|]. destruct (lexps_starts p l) as (r & ->). rewrite wordsof_cons. cbn [word1 render1 app].
    now apply ParseSP_tok, good_name. }
  rewrite E, loop_more; [reflexivity|exact N|exact H| |exact T1|exact T2].
  rewrite app_length. pose proof (lexps_length l). lia.
Qed.
Lemma lexch_ok s l b : is_token s -> l <> [] -> Forall good_aparam l -> lex_ok b -> (match b with LTok _ :: _ => False | _ => True end) -> lex_ok (lexch s l ++ b).
Proof.
  intros T N H B R. cbn [lexch app lex_ok]. split; [exact T|]. split; [exact I|]. split; [|now apply lexps_ok].
  destruct l as [|p l]; [easy|]. destruct (lexps_starts p l) as (r & E). rewrite E. exact I.
Qed.
Lemma lexch_render s l : l <> [] -> Forall good_aparam l -> render (lexch s l) = s ++ lit " " ++ join_comma (map param_str l).
Proof. intros N H. unfold lexch. rewrite !render_cons, lexps_render by exact H. reflexivity. Qed.
(** Deciding *)
Definition tokenb (s : str) : bool := match s with [] => false | _ => forallb (fun c => negb (IsCTL c || IsSEPARATOR c)) s end.
Lemma token_test s : tokenb s = true -> is_token s.
Proof.
  unfold tokenb, is_token. destruct s as [|c s]; [discriminate|]. intros H. split; [discriminate|]. rewrite forallb_forall in H.
  apply Forall_forall. intros x X. apply token_char_model. apply H in X. now apply negb_true_iff in X.
Qed.
Definition octetsb (s : str) : bool := forallb (fun c => (0 <=? c) && (c <? 256)) s.
Lemma octets_test s : octetsb s = true -> octets s.
Proof. unfold octetsb, octets, octet. rewrite forallb_forall. intros H. apply Forall_forall. intros x X. apply H in X. lia. Qed.
Lemma default_good : good_aparam default_realm.
Proof. split; [now apply token_test|]. split; [now apply octets_test|now right]. Qed.
Lemma full_good s l : Forall good_aparam l -> Forall good_aparam (ch_params (Challenge s l)).
Proof.
  intros H. destruct (Challenge_params s l) as [[_ ->]|[_ ->]]; [exact H|]. apply Forall_app. split; [exact H|]. apply Forall_cons; [apply default_good|apply Forall_nil].
Qed.
Lemma full_some s l : ch_params (Challenge s l) <> [].
Proof. destruct (Challenge_full s l) as (p & P & _). intros E. now rewrite E in P. Qed.
Lemma Challenge_scheme s l : ch_scheme (Challenge s l) = s.
Proof. unfold Challenge. now destruct (negb _). Qed.
Lemma challenge_str_lex s l : Forall good_aparam l ->
  challenge_str (Challenge (Some s) l) = Ok (render (lexch s (ch_params (Challenge (Some s) l)))).
Proof.
  intros H. unfold challenge_str. rewrite Challenge_scheme. rewrite lexch_render; [|apply full_some|now apply full_good].
  pose proof (full_some (Some s) l) as N. now destruct (ch_params (Challenge (Some s) l)).
Qed.
Lemma basic_token : is_token (lit "Basic").
Proof. apply token_test. reflexivity. Qed.

Lemma list_read s l : is_token s -> Forall good_aparam l -> exists t, challenge_str (Challenge (Some s) l) = Ok t /\
  ListFromString t =
  let full := map rd (ch_params (Challenge (Some s) l)) in
  if str_eqb (lower s) (lit "basic") then Ok [BasicChallenge full]
  else match full with [] => Err TypeError | _ :: l' => Ok [Challenge None l'] end.
Proof.
  intros T H. eexists. split; [now apply challenge_str_lex|]. set (full := ch_params (Challenge (Some s) l)).
  assert (F : Forall good_aparam full) by now apply full_good. assert (N : full <> []) by apply full_some.
  unfold ListFromString. rewrite WordParser_render.
  2:{ pose proof (lexch_ok s full [] T N F I I) as K. now rewrite app_nil_r in K. }
  cbn [bind]. rewrite lexch_words. cbn [length list_loop]. unfold ParseProduction. rewrite <- lexch_words, RequireChallenge_read by assumption.
  cbv zeta. destruct (str_eqb (lower s) (lit "basic")); [reflexivity|]. destruct (map rd full); reflexivity.
Qed.

(** ** FromString: one parameter, or refused *)
Lemma from_string s l : is_token s -> Forall good_aparam l -> exists t, challenge_str (Challenge (Some s) l) = Ok t /\
  FromString t =
  match ch_params (Challenge (Some s) l) with
  | [p] => if str_eqb (lower s) (lit "basic") then Ok (BasicChallenge [rd p]) else Ok (Challenge None [])
  | _ => if str_eqb (lower s) (lit "basic") then Err BadSyntax else FromString t
  end.
Proof.
  intros T H. eexists. split; [now apply challenge_str_lex|]. set (full := ch_params (Challenge (Some s) l)).
  assert (F : Forall good_aparam full) by now apply full_good. assert (N : full <> []) by apply full_some. clearbody full.
  assert (K : WordParser false (render (lexch s full)) = Ok (Some s :: Some [32] :: wordsof false (lexps full))).
  { rewrite WordParser_render; [reflexivity|]. pose proof (lexch_ok s full [] T N F I I) as K. now rewrite app_nil_r in K. }
  destruct F as [|p full Hp F]; [easy|]. destruct F as [|p' full Hp' F].
  - unfold FromString. rewrite K. cbn [bind]. rewrite ParseSP_tok by exact T.
    unfold RequireChallenge. rewrite ParseSP_tok, RequireToken_tok by exact T. cbn [bind]. rewrite ParseSP_sp. cbn [lexps challenge_loop length].
    pose proof (param_of_ok false p [] Hp) as P. rewrite app_nil_r in P. rewrite P.
    rewrite lexp_words, cWord_some. cbn [bind]. rewrite ParseSP_nil, ParseSeparator_nil. cbn [app].
    destruct (str_eqb (lower s) (lit "basic")); reflexivity.
  - destruct (str_eqb (lower s) (lit "basic")) eqn:B; [|reflexivity]. unfold FromString. rewrite K. cbn [bind]. rewrite ParseSP_tok by exact T.
    unfold RequireChallenge. rewrite ParseSP_tok, RequireToken_tok by exact T. cbn [bind]. rewrite ParseSP_sp.
    assert (E : exists w, wordsof false (lexps (p :: p' :: full)) = wordsof false (lexp p) ++ Some [44] :: Some [32] :: Some (name_of p') :: w).
    { destruct full; cbn [lexps]; rewrite wordsof_app; eexists; f_equal; cbn [wordsof flat_map word1 app]; rewrite ?app_nil_r;
        [change (flat_map (word1 false) (lexp p')) with (wordsof false (lexp p'))|
         rewrite flat_map_app; change (flat_map (word1 false) (lexp p')) with (wordsof false (lexp p'))]; rewrite lexp_words; reflexivity. }
    destruct E as (w & ->). cbn [length challenge_loop]. rewrite (param_of_ok false p _ Hp). rewrite lexp_words. cbn [app length]. rewrite cWord_some. cbn [bind].
    rewrite ParseSP_sep by discriminate. rewrite ParseSeparator_ok. cbn [challenge_loop]. rewrite cWord_some.
    assert (P : param_of (Some [32] :: Some (name_of p') :: w) = Ok (None, Some [32] :: Some (name_of p') :: w)) by reflexivity.
    rewrite P. cbn [bind]. rewrite ParseSP_sp. assert (T' : is_token (name_of p')) by (destruct p' as [[n v] q]; apply Hp').
    rewrite ParseSeparator_tok; [|exact T'|unfold separator; cbn [In]; lia]. cbn [bind]. rewrite B. cbn [bind].
    rewrite ParseSP_tok by exact T'. unfold RequireEnd, more. cbn [cWord].
    destruct (token_head _ T') as (c & r & -> & _). reflexivity.
Qed.

(** ** Two challenges and more *)
Lemma map_str_lex ls : Forall (Forall good_aparam) ls ->
  map_str (map BasicChallenge ls) = Ok (map (fun l => render (lexch (lit "Basic") (ch_params (BasicChallenge l)))) ls).
Proof.
  induction 1 as [|l ls H _ IH]; [reflexivity|]. cbn [map map_str]. unfold BasicChallenge at 1. rewrite challenge_str_lex by exact H. cbn [bind].
  rewrite IH. reflexivity.
Qed.
Fixpoint lexchs (ls : list (list aparam)) : list lex :=
  match ls with [] => [] | [l] => lexch (lit "Basic") l | l :: ls' => lexch (lit "Basic") l ++ LSep 44 :: LSp :: lexchs ls' end.
Lemma lexchs_ok ls : Forall (fun l => l <> [] /\ Forall good_aparam l) ls -> lex_ok (lexchs ls).
Proof.
  induction 1 as [|l ls [N H] _ IH]; [exact I|]. destruct ls as [|l' ls]; cbn [lexchs].
  - pose proof (lexch_ok _ l [] basic_token N H I I) as K. now rewrite app_nil_r in K.
  - apply lexch_ok; [apply basic_token|exact N|exact H| |exact I]. cbn [lex_ok]. split; [apply single44|]. split; [|exact IH].
    destruct ls; exact I.
Qed.
Lemma lexchs_render ls : render (lexchs ls) = join_comma (map (fun l => render (lexch (lit "Basic") l)) ls).
Proof.
  induction ls as [|l ls IH]; [reflexivity|]. destruct ls as [|l' ls]; [reflexivity|]. cbn [lexchs map join_comma] in *.
  rewrite render_app, !render_cons, IH. reflexivity.
Qed.
Lemma two_refused l l' ls : Forall (Forall good_aparam) (l :: l' :: ls) ->
  exists t, SetWWWAuthenticate (map BasicChallenge (l :: l' :: ls)) = Ok t /\ ListFromString t = Err BadSyntax.
Proof.
  intros H. set (L := l :: l' :: ls) in *.
  exists (render (lexchs (map (fun l => ch_params (BasicChallenge l)) L))). split.
  - unfold SetWWWAuthenticate. rewrite map_str_lex by exact H. cbn [bind]. rewrite lexchs_render, map_map. reflexivity.
  - assert (G : Forall (fun l => l <> [] /\ Forall good_aparam l) (map (fun l => ch_params (BasicChallenge l)) L)).
    { apply Forall_map. eapply Forall_impl; [|exact H]. intros a A. split; [apply full_some|now apply full_good]. }
    unfold ListFromString. rewrite WordParser_render by now apply lexchs_ok. cbn [bind]. subst L. cbn [map] in *.
    inversion G as [|? ? [N F] G']; subst. inversion G' as [|? ? [N' F'] _]; subst.
    set (a := ch_params (BasicChallenge l)) in *. set (b := ch_params (BasicChallenge l')) in *.
    assert (E : exists n w, is_token n /\ wordsof true (lexchs (a :: b :: map (fun l => ch_params (BasicChallenge l)) ls)) =
      wordsof true (lexch (lit "Basic") a) ++ Some [44] :: Some (lit "Basic") :: Some n :: w).
    { clearbody a b. destruct F' as [|p b Hb F']; [easy|]. exists (name_of p). set (rest := map (fun l => ch_params (BasicChallenge l)) ls).
      assert (E1 : exists r, lexchs ((p :: b) :: rest) = LTok (lit "Basic") :: LSp :: LTok (name_of p) :: r).
      { destruct (lexps_starts p b) as (r & E). unfold lexchs. fold lexchs. unfold lexch. destruct rest; rewrite E; cbn [app]; eauto. }
      destruct E1 as (r & E1). eexists. split; [now apply good_name|].
      change (lexchs (a :: (p :: b) :: rest)) with (lexch (lit "Basic") a ++ LSep 44 :: LSp :: lexchs ((p :: b) :: rest)).
      rewrite wordsof_app, E1. reflexivity. }
    destruct E as (n & w & Tn & ->). rewrite lexch_words. cbn [app length]. cbn [list_loop]. unfold ParseProduction.
    change (Some (lit "Basic") :: wordsof true (lexps a) ++ Some [44] :: Some (lit "Basic") :: Some n :: w) with
      (wordsof true (lexch (lit "Basic") a) ++ Some [44] :: Some (lit "Basic") :: Some n :: w).
    rewrite RequireChallenge_more; [|apply basic_token|exact N|exact F|apply basic_token|exact Tn]. cbn [bind].
    rewrite lexch_words. cbn [app]. rewrite ParseSeparator_tok; [|apply basic_token|unfold separator; cbn [In]; lia]. reflexivity.
Qed.
