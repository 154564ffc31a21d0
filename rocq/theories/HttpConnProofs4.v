(** Reading the heads of responses: the status line and the header fields. *)
From Coq Require Import Lia Zify.
From Verif Require Import Py Iso Dec XmlUtils XmlChars XmlCharsSpec Xsd XsdSpec XsdProofs Imscp ImscpProofs Shapes ShapesProofs2
  HttpCore HttpParams HttpSpec HttpProofs HttpProofs2 OdPage OdPageProofs HttpConn HttpConnSpec HttpConnProofs.
Open Scope Z_scope.

(** ** Plain text as words *)
Lemma separator_dec c : separator c \/ ~ separator c.
Proof. destruct (mem c SEPARATORS) eqn:X; [left; now apply mem_sep|right]. intros H. apply mem_sep in H. congruence. Qed.
Lemma last_cons_ne (c : Z) s d : s <> [] -> last (c :: s) d = last s d.
Proof. destruct s; [congruence|reflexivity]. Qed.
Definition thin (l : list lex) : Prop := Forall (fun x => forall k, x = LSps k -> k = 0%nat) l.
Lemma lexify s : Forall text_char s -> last s 0 <> 32 ->
  exists l, lex_ok l /\ render l = s /\ (spaced s -> thin l) /\ (hd 0 s <> 32 -> match l with LSps _ :: _ => False | _ => True end).
Proof.
  induction s as [|c s IH]; intros T L.
  - exists []. refine (conj I (conj eq_refl (conj _ _))); [intros _; constructor|trivial].
  - inversion T as [|? ? Tc Ts]; subst.
    assert (L' : last s 0 <> 32) by (destruct s; [cbn; lia|exact L]).
    destruct (IH Ts L') as (l & O & R & S & H). clear IH.
    assert (Sp : spaced (c :: s) -> spaced s) by (intros X a b Y; apply (X (c :: a) b); now rewrite Y).
    assert (Ad : forall x, render1 x = [c] -> (forall k, x = LSps k -> k = 0%nat) -> lex_ok (x :: l) -> (hd 0 (c :: s) <> 32 -> match x with LSps _ => False | _ => True end) ->
              exists l', lex_ok l' /\ render l' = c :: s /\ (spaced (c :: s) -> thin l') /\
                (hd 0 (c :: s) <> 32 -> match l' with LSps _ :: _ => False | _ => True end)).
    { intros x Rx Kx Ox Hx. exists (x :: l). refine (conj Ox (conj _ (conj _ Hx))).
      - rewrite render_cons, Rx, R. reflexivity.
      - intros X. constructor; [exact Kx|now apply S, Sp]. }
    destruct (separator_dec c) as [Cs|Cs].
    + destruct (Z.eq_dec c 32) as [->|N].
      * destruct l as [|x l]; [cbn in R; subst s; cbn in L; congruence|].
        destruct x as [t|x|q|k];
          try (apply (Ad (LSps 0)); [reflexivity|congruence|split; [exact I|exact O]|cbn; congruence]).
        exists (LSps (Datatypes.S k) :: l). refine (conj O (conj _ (conj _ _))).
        -- rewrite render_cons in R |- *. cbn [render1] in R |- *. rewrite <- R. reflexivity.
        -- intros X. exfalso. rewrite render_cons in R. cbn in R. apply (X [] (repeat 32 k ++ render l)).
           rewrite <- R. reflexivity.
        -- cbn. congruence.
      * apply (Ad (LSep c)); [reflexivity|discriminate|split; [|exact O]|trivial].
        unfold single. unfold separator in Cs. unfold text_char in Tc. cbn [In] in *. lia.
    + assert (token_char c) as Tk by (unfold token_char; unfold text_char in Tc; tauto).
      assert (is_token [c]) as Tc1 by (split; [discriminate|constructor; [exact Tk|constructor]]).
      destruct l as [|x l]; [|destruct x as [t|x|q|k]];
        try (apply (Ad (LTok [c])); [reflexivity|discriminate|split; [exact Tc1|split; [exact I|exact O]]|trivial]).
      exists (LTok (c :: t) :: l). cbn [lex_ok] in O. destruct O as ([O1 O2] & O3 & O4). refine (conj _ (conj _ (conj _ _))).
      * split; [split; [discriminate|now constructor]|]. split; assumption.
      * rewrite render_cons in R |- *. cbn [render1] in R |- *. cbn. now rewrite R.
      * intros X. apply Sp in X. apply S in X. inversion X; subst. constructor; [discriminate|assumption].
      * trivial.
Qed.
Lemma join_words_thin l : thin l -> join_words (wordsof false l) = Ok (render l).
Proof.
  induction 1 as [|x l Hx Hl IH]; [reflexivity|].
  rewrite wordsof_cons, render_cons. destruct x as [t|c|q|k]; cbn [word1 app join_words bind]; rewrite IH; cbn [bind]; try reflexivity.
  rewrite (Hx k eq_refl). reflexivity.
Qed.
Lemma ParseRemainder_thin l : lex_ok l -> thin l -> ParseRemainder (wordsof false l) = Ok (render l).
Proof.
  intros O T. rewrite <- (join_words_thin l T). unfold ParseRemainder.
  destruct l as [|x l]; [reflexivity|]. destruct (more (wordsof false (x :: l))) eqn:M; [reflexivity|]. exfalso.
  destruct x as [t|c|q|k]; cbn in O.
  - destruct t; [now destruct O as [[O _] _]|discriminate].
  - discriminate.
  - cbn [wordsof flat_map word1 app render1] in M. rewrite QuoteString_true in M. discriminate.
  - discriminate.
Qed.

(** ** The status line *)
Lemma chop2_crlf s : chop2 (s ++ CRLF) = s.
Proof.
  unfold chop2. rewrite app_length. cbn [length CRLF].
  replace (length s + 2 - 2)%nat with (length s) by lia. now rewrite firstn_app, firstn_all, Nat.sub_diag, app_nil_r.
Qed.
Lemma decimal_token n s : decimal n s -> is_token s.
Proof. intros (H1 & H2 & _). now apply digits_token. Qed.
Lemma decimal_no46 n s : decimal n s -> ~ In 46 s.
Proof. intros (_ & H & _) I. rewrite Forall_forall in H. apply H in I. unfold is_dec in I. lia. Qed.
Definition with_status (r : resp) (v : version) (s : Z) (reason : str) : resp :=
  mkResp (r_headers r) (r_chunked r) (r_len r) (r_pos r) (Some v) (Some s) (Some reason) RESP_HEADER (r_curr r) (r_request r).
Lemma status_line_ok r v s reason major minor status rt :
  decimal (v_major v) major -> decimal (v_minor v) minor -> decimal s status -> reason_text reason rt ->
  status_line r ((lit "HTTP/" ++ major ++ lit "." ++ minor ++ lit " " ++ status ++ rt) ++ CRLF) = Ok (with_status r v s reason).
Proof.
  intros Dma Dmi Ds Rt.
  assert (exists l, lex_ok l /\ render l = rt /\ match l with [] | LSps _ :: _ => True | _ => False end /\
                    ParseRemainder (ParseSP (wordsof false l)) = Ok reason) as (l & O & R & St & P).
  { destruct Rt as [|x N H [T L] Sp].
    - exists []. now repeat split.
    - destruct (lexify x T L) as (l & O & R & S & Hd). exists (LSps 0 :: l).
      assert (l <> []) by (intros ->; cbn in R; congruence).
      repeat split.
      + destruct l as [|[]]; try exact I; [congruence|]. now apply Hd in H.
      + exact O.
      + rewrite render_cons, R. reflexivity.
      + rewrite wordsof_cons. cbn [word1 app]. rewrite ParseSP_sp. rewrite ParseRemainder_thin by (try apply S; assumption).
        now rewrite R. }
  assert (Tv : is_token (major ++ [46] ++ minor)).
  { destruct (decimal_token _ _ Dma) as [M1 M2], (decimal_token _ _ Dmi) as [M3 M4]. split.
    - intros X. apply app_eq_nil in X. now destruct X.
    - apply Forall_app. split; [exact M2|]. constructor; [|exact M4]. unfold token_char, separator. cbn [In]. lia. }
  pose proof (decimal_token _ _ Ds) as Ts.
  assert (Ht : is_token (lit "HTTP")).
  { split; [discriminate|]. change (lit "HTTP") with [72; 84; 84; 80]. repeat (apply Forall_nil || apply Forall_cons); unfold token_char, separator; cbn [In]; lia. }
  set (ll := LTok (lit "HTTP") :: LSep 47 :: LTok (major ++ [46] ++ minor) :: LSps 0 :: LTok status :: l).
  assert (Ol : lex_ok ll).
  { unfold ll. cbn [lex_ok]. repeat split; try assumption; try exact I; try apply Ht; try apply Tv; try apply Ts.
    - unfold single. cbn [In]. lia.
    - destruct l as [|[]]; try exact I; tauto. }
  assert (Rl : render ll = lit "HTTP/" ++ major ++ lit "." ++ minor ++ lit " " ++ status ++ rt).
  { unfold ll. rewrite !render_cons, R. cbn [render1]. rewrite <- !app_assoc. reflexivity. }
  unfold status_line. rewrite chop2_crlf, <- Rl, WordParser_render by exact Ol. cbn [bind].
  unfold ll. rewrite !wordsof_cons. cbn [word1 app render1].
  unfold ParseHTTPVersion. rewrite ParseSP_tok, RequireToken_tok by exact Ht. cbn [bind].
  change (str_eqb (upper (lit "HTTP")) (lit "HTTP")) with true. cbn [negb].
  rewrite ParseSP_sep by lia. rewrite RequireSeparator_ok. cbn [bind].
  rewrite ParseSP_tok, RequireToken_tok by exact Tv. cbn [bind].
  cbn [app]. rewrite split_app_no by (eapply decimal_no46; exact Dma). rewrite split_no by (eapply decimal_no46; exact Dmi).
  destruct Dma as (A1 & A2 & A3), Dmi as (B1 & B2 & B3), Ds as (C1 & C2 & C3).
  rewrite !IsDIGITS_spec by assumption. cbn [negb orb bind]. rewrite ParseSP_sp. cbn [cWord].
  rewrite IsDIGITS_spec by assumption. cbn [next tl]. rewrite P. cbn [bind].
  change int_digits with dval. unfold with_status. rewrite <- C3. destruct v as [ma mi]. cbn in *. now rewrite A3, B3.
Qed.

(** The line has no end of line inside. *)
Lemma one_line_high s : Forall (fun c => 32 <= c) s -> one_line s.
Proof.
  intros H a b E. rewrite E, Forall_app in H. destruct H as [_ H]. apply Forall_inv in H. lia.
Qed.
Lemma dec_high n s : decimal n s -> Forall (fun c => 32 <= c) s.
Proof. intros (_ & H & _). eapply Forall_impl; [|exact H]. cbn. unfold is_dec. lia. Qed.
Lemma reason_high r t : reason_text r t -> Forall (fun c => 32 <= c) t.
Proof.
  intros [|x N H [T L] Sp]; constructor; [lia|]. eapply Forall_impl; [|exact T]. cbn. unfold text_char. lia.
Qed.

(** ** Header fields *)
Definition reading (r : resp) : Prop := r_mode r = RESP_HEADER \/ r_mode r = RESP_CHUNK_TRAILER.
Lemma reading_needs r : reading r -> RecvNeeds r = NLine.
Proof. unfold RecvNeeds. now intros [->| ->]. Qed.
Lemma reading_not_done r : reading r -> is_done r = false.
Proof. unfold is_done. now intros [->| ->]. Qed.
Lemma RecvLine_reading m r line r' : reading r -> line <> CRLF -> ReadHeader r line = Ok r' -> RecvLine m r line = Ok r'.
Proof.
  intros H N R. unfold RecvLine. apply str_eqb_neq in N. destruct H as [-> | ->]; rewrite R; cbn [bind]; now rewrite N.
Qed.
Lemma with_headers_mode r h c : r_mode (with_headers r h c) = r_mode r. Proof. reflexivity. Qed.
Lemma with_headers_reading r h c : reading r -> reading (with_headers r h c). Proof. exact (fun H => H). Qed.
Lemma with_headers_twice r h c h' c' : with_headers (with_headers r h c) h' c' = with_headers r h' c'. Proof. reflexivity. Qed.
Section Runs.
Context {ia : Prop}.
Notation runs := (runs_with ia).
Lemma runs_header m r line rest r' w rf left : reading r -> find_line (line ++ rest) = Some (line, rest) -> line <> CRLF ->
  ReadHeader r line = Ok r' -> reading r' -> runs m r' rest w rf left -> runs m r (line ++ rest) w rf left.
Proof.
  intros H F N R H' X. eapply runs_line; try eassumption.
  - now apply reading_needs.
  - now apply RecvLine_reading.
  - rewrite reading_not_done by exact H'. discriminate.
Qed.

(** Lines that go on *)
Lemma ParseLWS_white c s : white c -> exists x, ParseLWS (c :: s) = Some x.
Proof.
  intros W. unfold ParseLWS. assert (c =? CR = false) as N by (unfold white, CR in *; lia).
  assert (match c :: s with c0 :: d :: r => if (c0 =? CR) && (d =? LF) then ([CR; LF], r) else ([], c :: s) | _ => ([], c :: s) end
          = (@nil Z, c :: s)) as ->.
  { destruct s; [reflexivity|]. now rewrite N. }
  cbn [blanks]. assert (mem c [SP; HT] = true) as ->.
  { unfold mem, SP, HT. cbn [existsb]. unfold white in W. lia. }
  destruct (blanks s). cbn. eauto.
Qed.
Lemma ReadHeader_more r n v line c s : line = c :: s -> white c -> r_curr r = Some (n, v) ->
  ReadHeader r line = Ok (with_headers r (r_headers r) (Some (n, v ++ line))).
Proof.
  intros -> W C. unfold ReadHeader. assert (str_eqb (c :: s) CRLF = false) as ->.
  { apply str_eqb_neq. unfold CRLF, CR. intros X. injection X as X _. unfold white in W. lia. }
  destruct (ParseLWS_white c s W) as [x ->]. now rewrite C.
Qed.
Lemma runs_folds m v : field_value v -> forall c v', v = c :: v' -> white c ->
  forall r n pre rest w rf left, reading r -> r_curr r = Some (n, pre) ->
  runs m (with_headers r (r_headers r) (Some (n, pre ++ v ++ CRLF))) rest w rf left ->
  runs m r (v ++ CRLF ++ rest) w rf left.
Proof.
  induction 1 as [l L|l d v L W Hv IH]; intros c v' E Wc r n pre rest w rf left H C R.
  - rewrite app_assoc. eapply runs_header; [exact H| | | |idtac|exact R].
    + rewrite <- app_assoc. now apply find_line_one.
    + rewrite E. cbn. intros X. injection X as X _. unfold white, CR in *. lia.
    + eapply ReadHeader_more; [rewrite E; reflexivity|exact Wc|exact C].
    + exact H.
  - destruct l as [|x l]; [cbn in E; injection E as E _; unfold white in Wc; lia|].
    cbn in E. injection E as -> E'.
    replace ((c :: l) ++ 13 :: 10 :: d :: v) with (((c :: l) ++ CRLF) ++ d :: v) in * by (rewrite <- app_assoc; reflexivity).
    rewrite <- app_assoc. eapply runs_header; [exact H| | | |idtac|].
    + rewrite <- (app_assoc (c :: l)). now apply find_line_one.
    + cbn. intros X. injection X as X _. unfold white, CR in *. lia.
    + eapply ReadHeader_more; [reflexivity|exact Wc|exact C].
    + exact H.
    + eapply (IH d v eq_refl W); [exact H|reflexivity|].
      rewrite with_headers_twice. cbn [r_headers with_headers]. rewrite <- !app_assoc in *. exact R.
Qed.
Lemma ReadHeader_new r name l rest : is_token name -> split_colon (name ++ 58 :: l) = Some (name, l) /\
  ReadHeader r (name ++ 58 :: l) = Ok (with_headers r (store_curr r) (Some (name, l))) /\ name ++ rest <> CRLF.
Proof.
  intros [N T]. assert (X : split_colon (name ++ 58 :: l) = Some (name, l)).
  { clear N. induction T as [|c name Tc T IH]; [reflexivity|]. cbn [app split_colon].
    assert (c =? 58 = false) as -> by (unfold token_char, separator in Tc; cbn [In] in Tc; lia). now rewrite IH. }
  destruct name as [|c name]; [congruence|]. apply Forall_inv in T.
  assert (13 <> c /\ 32 <> c /\ 9 <> c) as Nc by (unfold token_char, separator in T; cbn [In] in T; lia).
  split; [exact X|]. split.
  - unfold ReadHeader. assert (str_eqb ((c :: name) ++ 58 :: l) CRLF = false) as ->.
    { apply str_eqb_neq. unfold CRLF, CR. cbn. intros Y. injection Y as Y _. lia. }
    assert (ParseLWS ((c :: name) ++ 58 :: l) = None) as ->.
    { cbn [app]. unfold ParseLWS. assert (c =? CR = false) as Cn by (unfold CR; lia).
      destruct (name ++ 58 :: l) as [|d s] eqn:Ed; [destruct name; discriminate|]. rewrite Cn. cbn [andb blanks].
      assert (mem c [SP; HT] = false) as ->; [|reflexivity]. unfold mem, SP, HT. cbn [existsb]. lia. }
    rewrite X. now destruct (r_curr r) as [[]|].
  - cbn. unfold CRLF, CR. intros Y. injection Y as Y _. lia.
Qed.
Lemma token_high n : is_token n -> Forall (fun c => 32 <= c) n.
Proof. intros [_ T]. eapply Forall_impl; [|exact T]. unfold token_char. cbn. tauto. Qed.
Lemma one_line_app a b : Forall (fun c => 32 <= c) a -> one_line b -> one_line (a ++ b).
Proof.
  intros H O. induction H as [|c a Hc H IH]; [exact O|]. intros [|x u] v E; cbn in E; injection E as E1 E2.
  - lia.
  - now apply (IH u v).
Qed.
Lemma runs_field m f r rest w rf left : reading r -> field_ok f ->
  runs m (with_headers r (store_curr r) (Some (fst f, snd f ++ CRLF))) rest w rf left ->
  runs m r (field_text f ++ rest) w rf left.
Proof.
  destruct f as [name v]. intros H [T V] R. cbn [fst snd] in *. unfold field_text. cbn [fst snd].
  change [13; 10] with CRLF. rewrite <- !app_assoc. change ([58] ++ v ++ CRLF ++ rest) with (58 :: v ++ CRLF ++ rest).
  assert (Hn : forall l, one_line l -> one_line (name ++ 58 :: l)).
  { intros l O. change (name ++ 58 :: l) with (name ++ ([58] ++ l)). rewrite app_assoc. apply one_line_app; [|exact O].
    apply Forall_app. split; [now apply token_high|]. repeat constructor. lia. }
  destruct V as [l O|l c v O W V].
  - replace (name ++ 58 :: l ++ CRLF ++ rest) with ((name ++ 58 :: l ++ CRLF) ++ rest)
      by (rewrite <- app_assoc; cbn [app]; now rewrite <- app_assoc).
    eapply runs_header; [exact H| | | | |exact R].
    + replace (name ++ 58 :: l ++ CRLF) with ((name ++ 58 :: l) ++ CRLF) by (rewrite <- app_assoc; reflexivity).
      rewrite <- app_assoc. apply find_line_one. now apply Hn.
    + now apply (ReadHeader_new r name (l ++ CRLF)).
    + now apply (ReadHeader_new r name (l ++ CRLF) []).
    + exact H.
  - replace (name ++ 58 :: (l ++ 13 :: 10 :: c :: v) ++ CRLF ++ rest) with ((name ++ 58 :: l ++ CRLF) ++ (c :: v) ++ CRLF ++ rest)
      by (rewrite <- app_assoc; cbn [app]; now rewrite <- !app_assoc).
    eapply runs_header; [exact H| | | | |].
    + replace (name ++ 58 :: l ++ CRLF) with ((name ++ 58 :: l) ++ CRLF) by (rewrite <- app_assoc; reflexivity).
      rewrite <- (app_assoc (name ++ 58 :: l)). apply find_line_one. now apply Hn.
    + now apply (ReadHeader_new r name (l ++ CRLF)).
    + now apply (ReadHeader_new r name (l ++ CRLF) []).
    + exact H.
    + eapply (runs_folds m (c :: v) V c v eq_refl W); [exact H|reflexivity|].
      rewrite with_headers_twice. cbn [r_headers with_headers].
      replace ((l ++ CRLF) ++ (c :: v) ++ CRLF) with ((l ++ 13 :: 10 :: c :: v) ++ CRLF); [exact R|].
      rewrite <- !app_assoc. reflexivity.
Qed.

Definition set_fields (l : list (str * str)) (h : headers) : headers :=
  fold_left (fun h f => SetHeader (fst f) (Some (snd f)) true h) l h.
Lemma store_field r h n v : store_curr (with_headers r h (Some (n, v ++ CRLF))) = SetHeader n (Some v) true h.
Proof. unfold store_curr. cbn. now rewrite chop2_crlf. Qed.
(** All fields up to the empty line *)
Lemma runs_fields m l : forall r rest w rf left, Forall field_ok l -> reading r ->
  (forall r', reading r' -> r_mode r' = r_mode r -> (exists h c, r' = with_headers r h c) ->
     store_curr r' = set_fields l (store_curr r) -> runs m r' (CRLF ++ rest) w rf left) ->
  runs m r (fields_text l ++ rest) w rf left.
Proof.
  induction l as [|f l IH]; intros r rest w rf left F H K.
  - cbn. apply K; try assumption; try reflexivity. exists (r_headers r), (r_curr r). now destruct r.
  - inversion F as [|? ? Hf Fl]; subst. unfold fields_text. cbn [map concat]. rewrite <- !app_assoc.
    apply runs_field; [exact H|exact Hf|]. rewrite app_assoc. apply (IH _ _ _ _ _ Fl); [exact H|].
    intros r' H' M (h & c & ->) S. rewrite with_headers_twice in *. apply K; try assumption.
    + now exists h, c.
    + rewrite S, store_field. reflexivity.
Qed.
End Runs.
