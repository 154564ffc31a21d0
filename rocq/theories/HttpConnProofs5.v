(** Reading whole responses: fields, lengths, chunks. *)
From Coq Require Import Lia Zify.
From Verif Require Import Py Iso Dec XmlUtils XmlChars XmlCharsSpec Xsd XsdSpec XsdProofs Imscp ImscpProofs Shapes ShapesProofs2
  HttpCore HttpParams HttpSpec HttpProofs HttpProofs2 OdPage OdPageProofs HttpConn HttpConnSpec HttpConnProofs HttpConnProofs4.
Open Scope Z_scope.

(** ** Looking up fields *)
Lemma dget_dset k v d : forall k', dget k' (dset k v d) = if str_eqb k k' then Some v else dget k' d.
Proof.
  induction d as [|[k1 v1] d IH]; intros k'; cbn [dset dget].
  - destruct (str_eqb k' k) eqn:X, (str_eqb k k') eqn:Y; try reflexivity.
    + apply str_eqb_eq in X. subst. rewrite str_eqb_refl in Y. discriminate.
    + apply str_eqb_eq in Y. subst. rewrite str_eqb_refl in X. discriminate.
  - destruct (str_eqb k k1) eqn:X; cbn [dget].
    + apply str_eqb_eq in X. subst k1. destruct (str_eqb k' k) eqn:Y.
      * apply str_eqb_eq in Y. subst. now rewrite str_eqb_refl.
      * destruct (str_eqb k k') eqn:Z'; [|reflexivity]. apply str_eqb_eq in Z'. subst. rewrite str_eqb_refl in Y. discriminate.
    + rewrite IH. destruct (str_eqb k' k1) eqn:Y; [|reflexivity]. apply str_eqb_eq in Y. subst. now rewrite X.
Qed.
Lemma GetHeader_Set h n v name : GetHeader (SetHeader n (Some v) true h) name =
  if str_eqb (lower n) (lower name)
  then Some (match GetHeader h name with Some o => o ++ lit ", " ++ v | None => v end) else GetHeader h name.
Proof.
  unfold GetHeader, SetHeader. destruct (str_eqb (lower n) (lower name)) eqn:X.
  - apply str_eqb_eq in X. rewrite X. destruct (dget (lower name) h) as [[a b]|]; rewrite dget_dset, str_eqb_refl; reflexivity.
  - destruct (dget (lower n) h) as [[a b]|]; rewrite dget_dset, X; reflexivity.
Qed.
Definition comb (o : option str) (vs : list str) : option str :=
  match o, vs with
  | Some x, _ => Some (join (lit ", ") (x :: vs))
  | None, [] => None
  | None, _ => Some (join (lit ", ") vs)
  end.
Lemma join_glue o v vs : join (lit ", ") ((o ++ lit ", " ++ v) :: vs) = join (lit ", ") (o :: v :: vs).
Proof. destruct vs; [reflexivity|]. cbn [join]. now rewrite <- !app_assoc. Qed.
Lemma GetHeader_fields name l : forall h, GetHeader (set_fields l h) name = comb (GetHeader h name) (values_of name l).
Proof.
  induction l as [|[n v] l IH]; intros h.
  - cbn. now destruct (GetHeader h name).
  - change (set_fields ((n, v) :: l) h) with (set_fields l (SetHeader n (Some v) true h)). rewrite IH, GetHeader_Set.
    unfold values_of. cbn [filter fst]. destruct (str_eqb (lower n) (lower name)) eqn:X; [|reflexivity].
    cbn [map snd]. destruct (GetHeader h name) as [o|]; cbn [comb]; [now rewrite join_glue|].
    reflexivity.
Qed.
Lemma GetHeader_field name l : GetHeader (set_fields l []) name = field name l.
Proof. rewrite GetHeader_fields. unfold field. cbn. now destruct (values_of name l). Qed.
Lemma set_fields_app a b h : set_fields (a ++ b) h = set_fields b (set_fields a h).
Proof. unfold set_fields. now rewrite fold_left_app. Qed.

(** ** The head of a response *)
Definition hd_resp (i : nat) (h : head) : resp :=
  mkResp (set_fields (h_fields h) []) false None 0 (Some (h_version h)) (Some (h_status h)) (Some (h_reason h)) RESP_HEADER None i.
Section Runs.
Context {ia : Prop}.
Notation runs := (runs_with ia).
Lemma head_runs m i h s rest w rf left : head_text h s ->
  (forall r', reading r' -> r_mode r' = RESP_HEADER -> r_request r' = i -> with_headers r' (store_curr r') None = hd_resp i h ->
     runs m r' (CRLF ++ rest) w rf left) ->
  runs m (new_resp i) (s ++ rest) w rf left.
Proof.
  intros [major minor status reason D1 D2 D3 R F] K.
  replace ((lit "HTTP/" ++ major ++ lit "." ++ minor ++ lit " " ++ status ++ reason ++ [13; 10] ++ fields_text (h_fields h)) ++ rest)
    with (((lit "HTTP/" ++ major ++ lit "." ++ minor ++ lit " " ++ status ++ reason) ++ CRLF) ++ fields_text (h_fields h) ++ rest)
    by (rewrite <- !app_assoc; reflexivity).
  eapply runs_line.
  - reflexivity.
  - rewrite <- (app_assoc _ CRLF). apply find_line_one. apply one_line_high.
    repeat (apply Forall_app; split); try (eapply dec_high; eassumption); try (eapply reason_high; eassumption).
    + change (lit "HTTP/") with [72; 84; 84; 80; 47]. repeat (apply Forall_nil || apply Forall_cons); lia.
    + change (lit ".") with [46]. repeat (apply Forall_nil || apply Forall_cons); lia.
    + change (lit " ") with [32]. repeat (apply Forall_nil || apply Forall_cons); lia.
  - unfold RecvLine. cbn [r_mode new_resp]. eapply status_line_ok; eassumption.
  - discriminate.
  - apply runs_fields; [exact F|now left|].
    intros r' H' M (hh & c & ->) S. apply K; try assumption; try reflexivity.
    rewrite with_headers_twice, S. reflexivity.
Qed.
Lemma RecvLine_end m r i h : r_mode r = RESP_HEADER -> with_headers r (store_curr r) None = hd_resp i h ->
  RecvLine m r CRLF = headers_end m (hd_resp i h).
Proof. intros M S. unfold RecvLine. rewrite M. unfold ReadHeader. rewrite str_eqb_refl, S. reflexivity. Qed.
Lemma headers_end_status m r r' : headers_end m r = Ok r' ->
  r_status r' = r_status r /\ r_version r' = r_version r /\ r_reason r' = r_reason r /\ r_headers r' = r_headers r /\
  r_request r' = r_request r /\ r_curr r' = r_curr r.
Proof.
  unfold headers_end, bind. destruct (response_length m r) as [[ch l]|]; [|discriminate]. intros X. injection X as <-.
  destruct ch; [now repeat split|]. destruct l as [n|]; [|now repeat split]. destruct (n =? 0); now repeat split.
Qed.
Lemma head_final m i h s r2 rest w rf left : head_text h s -> ~ (100 <= h_status h <= 199) ->
  headers_end m (hd_resp i h) = Ok r2 -> runs m r2 rest w rf left -> runs m (new_resp i) (s ++ rest) w rf left.
Proof.
  intros H N E R. eapply head_runs; [exact H|]. intros r' Hr M Q S.
  eapply runs_line; [now apply reading_needs|reflexivity|erewrite RecvLine_end by eassumption; exact E| |exact R].
  intros _. destruct (headers_end_status _ _ _ E) as (St & _). exists (h_status h). split; [exact St|exact N].
Qed.
Lemma bodyless_length m i h : bodyless m h -> response_length m (hd_resp i h) = Ok (false, Some 0).
Proof.
  intros B. unfold response_length. cbn [r_status hd_resp].
  assert ((h_status h / 100 =? 1) || (h_status h =? 204) || (h_status h =? 304) || str_eqb m (lit "HEAD") = true) as ->; [|reflexivity].
  destruct B as [B|[B|[B|B]]].
  - assert (h_status h / 100 = 1) as -> by (symmetry; apply Z.div_unique with (h_status h - 100); lia). reflexivity.
  - rewrite B. reflexivity.
  - rewrite B. reflexivity.
  - subst m. rewrite str_eqb_refl. now rewrite !orb_true_r.
Qed.
Lemma with_body_length m i h : ~ bodyless m h -> response_length m (hd_resp i h) =
  (d <- declared_length (set_fields (h_fields h) []) ;;
   match d with Some None => Ok (true, None) | Some (Some n) => Ok (false, Some n) | None => Ok (false, None) end).
Proof.
  intros B. unfold response_length. cbn [r_status hd_resp r_headers r_len].
  assert ((h_status h / 100 =? 1) || (h_status h =? 204) || (h_status h =? 304) || str_eqb m (lit "HEAD") = false) as ->; [|reflexivity].
  apply not_true_iff_false. intros X. apply B. unfold bodyless. rewrite !orb_true_iff in X.
  destruct X as [[[X|X]|X]|X]; [left|right; left; lia|right; right; left; lia|right; right; right; now apply str_eqb_eq].
  apply Z.eqb_eq in X. pose proof (Z.div_mod (h_status h) 100). pose proof (Z.mod_pos_bound (h_status h) 100). lia.
Qed.
Lemma head_interim m i h s rest w rf left : ia -> head_text h s -> 100 <= h_status h <= 199 ->
  runs m (new_resp i) rest w rf left -> runs m (new_resp i) (s ++ rest) w rf left.
Proof.
  intros Ia H N R. eapply head_runs; [exact H|]. intros r' Hr M Q S.
  assert (headers_end m (hd_resp i h) = Ok (with_length (hd_resp i h) false (Some 0) 0 RESP_DONE)) as E.
  { unfold headers_end. rewrite bodyless_length by (left; exact N). reflexivity. }
  eapply runs_interim; [exact Ia|exact M|reflexivity|erewrite RecvLine_end by eassumption; exact E|reflexivity|reflexivity|exact N|].
  rewrite Q. exact R.
Qed.
Lemma interim_runs m i t rest w rf left : ia -> interim_text t -> runs m (new_resp i) rest w rf left ->
  runs m (new_resp i) (t ++ rest) w rf left.
Proof.
  intros Ia. induction 1 as [|h s t N H Ht IH]; intros R; [exact R|]. rewrite <- app_assoc. eapply head_interim; eauto.
Qed.

(** ** Lengths *)
Lemma lstrip_pre a s : Forall white a -> lstrip (a ++ s) = lstrip s.
Proof.
  induction 1 as [|c a W _ IH]; [reflexivity|]. cbn [app lstrip].
  assert (is_space c = true) as -> by (unfold is_space; unfold white in W; lia). exact IH.
Qed.
Lemma strip_padded s v : padded s v -> s <> [] -> Forall (fun c => is_space c = false) s -> strip v = s.
Proof.
  intros (a & b & -> & Wa & Wb) N H. unfold strip. rewrite lstrip_pre by exact Wa.
  rewrite (lstrip_id (s ++ b)).
  2:{ destruct s as [|c s]; [congruence|]. now apply Forall_inv in H. }
  rewrite rev_app_distr, lstrip_pre by now apply Forall_rev.
  apply Forall_rev in H. rewrite lstrip_id; [apply rev_involutive|].
  destruct (rev s); [exact I|]. now apply Forall_inv in H.
Qed.
Lemma content_length n s v : decimal n s -> padded s v -> int_of (strip v) = Ok n.
Proof.
  intros (H1 & H2 & H3) P. rewrite (strip_padded s v P H1).
  - apply int_of_ok. exists [], 1, s. repeat split; try assumption; [constructor|]. now rewrite H3, Z.mul_1_l.
  - eapply Forall_impl; [|exact H2]. intros c. apply dec_not_space.
Qed.
Lemma not_identity c v : padded c v -> lower c = lit "chunked" -> str_eqb v (lit "identity") = false.
Proof.
  intros (a & b & -> & Wa & Wb) L. apply str_eqb_neq. intros X.
  assert (length c = 7%nat) as Lc.
  { apply (f_equal (@length Z)) in L. unfold lower in L. rewrite map_length in L. exact L. }
  destruct a as [|x a].
  - cbn [app] in X. destruct (rev b) as [|y b'] eqn:B.
    + apply (f_equal (@rev Z)) in B. rewrite rev_involutive in B. subst b. cbn in X. rewrite app_nil_r in X. subst c. discriminate.
    + apply (f_equal (@rev Z)) in X. rewrite rev_app_distr, B in X. cbn in X. injection X as X _.
      apply Forall_rev in Wb. rewrite B in Wb. apply Forall_inv in Wb. unfold white in Wb. lia.
  - cbn in X. injection X as X _. apply Forall_inv in Wa. unfold white in Wa. lia.
Qed.

(** A response that is complete *)
Record complete (i : nat) (h : head) (trailer : list (str * str)) (rf : resp) : Prop := mkComplete {
  cp_needs : RecvNeeds rf = NNone;
  cp_version : r_version rf = Some (h_version h);
  cp_status : r_status rf = Some (h_status h);
  cp_reason : r_reason rf = Some (h_reason h);
  cp_headers : r_headers rf = set_fields (h_fields h ++ trailer) [];
  cp_request : r_request rf = i }.

(** ** Chunks *)
Lemma hex_token s : s <> [] -> Forall hex_digit s -> is_token s.
Proof.
  intros N H. split; [exact N|]. eapply Forall_impl; [|exact H]. unfold hex_digit, token_char, separator. cbn [In]. lia.
Qed.
Lemma int16_hex n s : hexadecimal n s -> int16 s = Some n.
Proof.
  intros (H1 & H2 & H3). unfold int16. rewrite strip_hex by exact H2. destruct s as [|c s]; [congruence|].
  assert (D : hex_digits_of (c :: s) = Some n).
  { unfold hex_digits_of. rewrite hex_run_spec by exact H2. f_equal. exact H3. }
  assert (U : hex_unsigned (c :: s) = Some n).
  { unfold hex_unsigned. destruct s as [|x s']; [destruct c as [|[| |]|]; try exact D; repeat (destruct p; try exact D)|].
    assert (Hx : (x =? 120) || (x =? 88) = false).
    { apply Forall_inv_tail, Forall_inv in H2. unfold hex_digit in H2. lia. }
    rewrite Hx. destruct c as [|p|p]; try exact D; repeat (destruct p; try exact D). }
  apply Forall_inv in H2. unfold hex_digit in H2.
  destruct c as [|p|p]; try exact U; repeat (destruct p; try exact U; try lia).
Qed.
Lemma quote_high v : Forall (fun c => 32 <= c < 256) v -> Forall (fun c => 32 <= c) (QuoteString v true).
Proof.
  intros H. rewrite QuoteString_true. constructor; [unfold DQUOTE; lia|]. apply Forall_app. split; [|repeat constructor; unfold DQUOTE; lia].
  induction H as [|c v Hc H IH]; [constructor|]. rewrite qbody_cons.
  destruct (escaped c); repeat (apply Forall_nil || apply Forall_cons); try exact IH; unfold BACKSLASH; lia.
Qed.
Lemma extension_lex e : extension e -> exists l, lex_ok l /\ render l = e /\ (match l with LTok _ :: _ => False | _ => True end) /\
  Forall (fun c => 32 <= c) e.
Proof.
  assert (S59 : single 59) by (unfold single; cbn [In]; tauto).
  assert (S61 : single 61) by (unfold single; cbn [In]; tauto).
  induction 1 as [|n e T X (l & O & R & S & H)|n v e T V X (l & O & R & S & H)|n v e T V X (l & O & R & S & H)].
  - exists []. repeat split. constructor.
  - exists (LSep 59 :: LTok n :: l). split; [|split; [|split; [exact I|]]].
    + split; [exact S59|]. split; [exact T|]. split; [exact S|exact O].
    + rewrite !render_cons, R. reflexivity.
    + constructor; [lia|]. apply Forall_app. split; [now apply token_high|exact H].
  - exists (LSep 59 :: LTok n :: LSep 61 :: LTok v :: l). split; [|split; [|split; [exact I|]]].
    + split; [exact S59|]. split; [exact T|]. split; [exact I|]. split; [exact S61|]. split; [exact V|]. split; [exact S|exact O].
    + rewrite !render_cons, R. reflexivity.
    + constructor; [lia|]. apply Forall_app. split; [now apply token_high|]. constructor; [lia|].
      apply Forall_app. split; [now apply token_high|exact H].
  - exists (LSep 59 :: LTok n :: LSep 61 :: LQuo v :: l). split; [|split; [|split; [exact I|]]].
    + split; [exact S59|]. split; [exact T|]. split; [exact I|]. split; [exact S61|]. split; [|exact O].
      eapply Forall_impl; [|exact V]. unfold octet. cbn. lia.
    + rewrite !render_cons, R. reflexivity.
    + constructor; [lia|]. apply Forall_app. split; [now apply token_high|]. constructor; [lia|].
      apply Forall_app. split; [now apply quote_high|exact H].
Qed.
Lemma chunk_line r n size e : hexadecimal n size -> extension e ->
  chunk_size r ((size ++ e) ++ CRLF) =
    Ok (if n =? 0 then with_length r (r_chunked r) (Some 0) 0 RESP_CHUNK_TRAILER
        else with_length r (r_chunked r) (Some (n + 2)) 0 RESP_CHUNK_DATA) /\
  one_line (size ++ e).
Proof.
  intros Hx He. destruct (extension_lex e He) as (l & O & R & S & H).
  assert (T : is_token size) by (destruct Hx as (H1 & H2 & _); now apply hex_token).
  split.
  - unfold chunk_size. rewrite chop2_crlf.
    replace (size ++ e) with (render (LTok size :: l)) by (rewrite render_cons, R; reflexivity).
    rewrite WordParser_render by (split; [exact T|]; split; [exact S|exact O]). cbn [bind].
    rewrite wordsof_cons. cbn [word1 app render1]. unfold ParseToken. rewrite IsToken_tok by exact T. cbn [fst cWord].
    rewrite (int16_hex _ _ Hx). reflexivity.
  - apply one_line_high. apply Forall_app. split; [now apply token_high|exact H].
Qed.
Lemma trailer_runs m l r rest : Forall field_ok l -> r_mode r = RESP_CHUNK_TRAILER -> r_curr r = None -> final r ->
  runs m r (fields_text l ++ rest) [] (with_mode (with_headers r (set_fields l (r_headers r)) None) RESP_DONE) rest.
Proof.
  intros F M C Fi. apply runs_fields; [exact F|now right|].
  intros r' H' M' (h & c & ->) S.
  assert (store_curr r = r_headers r) as Sr by (unfold store_curr; now rewrite C). rewrite Sr in S.
  eapply runs_line; [now apply reading_needs|reflexivity| | |apply runs_stop; left; reflexivity].
  - unfold RecvLine. rewrite M', M. unfold ReadHeader. rewrite str_eqb_refl. cbn [bind]. now rewrite S, with_headers_twice.
  - intros _. exact Fi.
Qed.
Lemma chunks_runs m body trailer text : chunks body trailer text ->
  forall r rest, r_mode r = RESP_CHUNK_SIZE -> r_curr r = None -> final r ->
  exists ch l p, runs m r (text ++ rest) body
    (with_length (with_headers r (set_fields trailer (r_headers r)) None) ch l p RESP_DONE) rest.
Proof.
  induction 1 as [size e trailer Hx He F|size e data body trailer text' Nd Mx Hx He Hc IH]; intros r rest M C Fi.
  - destruct (chunk_line r 0 size e Hx He) as [L O]. exists (r_chunked r), (Some 0), 0.
    replace ((size ++ e ++ [13; 10] ++ fields_text trailer) ++ rest) with (((size ++ e) ++ CRLF) ++ fields_text trailer ++ rest)
      by (rewrite <- !app_assoc; reflexivity).
    eapply runs_line.
    + unfold RecvNeeds. now rewrite M.
    + rewrite <- (app_assoc _ CRLF). now apply find_line_one.
    + unfold RecvLine. rewrite M, L. reflexivity.
    + discriminate.
    + cbn [Z.eqb]. apply (trailer_runs m trailer (with_length r (r_chunked r) (Some 0) 0 RESP_CHUNK_TRAILER) rest F); try assumption. reflexivity.
  - destruct (chunk_line r _ size e Hx He) as [L O].
    assert (Ld : 0 < Z.of_nat (length data)) by (destruct data; [congruence|cbn [length]; lia]).
    set (n := Z.of_nat (length data)) in *.
    set (r1 := with_length r (r_chunked r) (Some (n + 2)) 0 RESP_CHUNK_DATA).
    set (r2 := with_length r (r_chunked r) (Some (n + 2)) (n + 2) RESP_CHUNK_SIZE).
    destruct (IH r2 rest) as (ch & l & p & R); try assumption; try reflexivity.
    exists ch, l, p.
    replace ((size ++ e ++ [13; 10] ++ data ++ [13; 10] ++ text') ++ rest)
      with (((size ++ e) ++ CRLF) ++ (data ++ CRLF) ++ text' ++ rest) by (rewrite <- !app_assoc; reflexivity).
    eapply runs_line.
    + unfold RecvNeeds. now rewrite M.
    + rewrite <- (app_assoc _ CRLF). now apply find_line_one.
    + unfold RecvLine. rewrite M, L. reflexivity.
    + destruct (n =? 0); discriminate.
    + destruct (n =? 0) eqn:Z0; [lia|]. fold r1. eapply runs_bytes with (n := n + 2) (r' := r2).
      * unfold RecvNeeds, r1. cbn. destruct (n + 2 =? 0) eqn:Z2; [lia|]. f_equal. lia.
      * lia.
      * rewrite len_app. unfold len. cbn [length CRLF]. fold n. lia.
      * assert (len (data ++ CRLF) = n + 2) as Ln by (rewrite len_app; unfold len; cbn [length CRLF]; fold n; lia).
        unfold RecvBytes, r1. cbn [r_mode with_length r_pos r_len]. rewrite Ln, Z.add_0_l.
        replace (n + 2 - (n + 2 - 2)) with 2 by lia. change (2 >? 0) with true. cbn [r_chunked].
        assert (n + 2 >=? n + 2 = true) as -> by lia. unfold r2. f_equal.
        rewrite app_length. cbn [length CRLF]. change (Z.to_nat 2) with 2%nat.
        replace (length data + 2 - 2)%nat with (length data) by lia. now rewrite firstn_app, firstn_all, Nat.sub_diag, app_nil_r.
      * discriminate.
      * exact R.
Qed.

(** ** The whole response *)
Theorem framed_runs m i h s body trailer text rest : head_text h s -> framed m h body trailer text -> ~ (100 <= h_status h <= 199) ->
  exists rf, complete i h trailer rf /\ runs m (new_resp i) (s ++ text ++ rest) body rf rest.
Proof.
  intros H F N. destruct F as [B|body n v B T L P D Mx|body trailer text c v B T P Lc Ch].
  - exists (with_length (hd_resp i h) false (Some 0) 0 RESP_DONE). split.
    + constructor; try reflexivity. cbn. now rewrite app_nil_r.
    + eapply head_final; [exact H|exact N| |apply runs_stop; left; reflexivity].
      unfold headers_end. now rewrite bodyless_length.
  - assert (E : response_length m (hd_resp i h) = Ok (false, Some (Z.of_nat (length body)))).
    { rewrite with_body_length by exact B. unfold declared_length, GetContentLength.
      rewrite !GetHeader_field, T, L, (content_length _ _ _ D P). reflexivity. }
    destruct body as [|x body].
    + exists (with_length (hd_resp i h) false (Some 0) 0 RESP_DONE). split.
      * constructor; try reflexivity. cbn. now rewrite app_nil_r.
      * eapply head_final; [exact H|exact N| |apply runs_stop; left; reflexivity].
        unfold headers_end. now rewrite E.
    + set (l := Z.of_nat (length (x :: body))) in *.
      assert (0 < l) by (unfold l; cbn [length]; lia).
      exists (with_length (hd_resp i h) false (Some l) l RESP_DONE). split.
      * constructor; try reflexivity. cbn. now rewrite app_nil_r.
      * eapply head_final with (r2 := with_length (hd_resp i h) false (Some l) 0 RESP_DATA); [exact H|exact N| |].
        -- unfold headers_end. rewrite E. cbn [bind]. now replace (l =? 0) with false by lia.
        -- rewrite <- (app_nil_r (x :: body)) at 2.
           eapply runs_bytes with (n := l); [| | | | |apply runs_stop; left; reflexivity].
           ++ unfold RecvNeeds. cbn [r_mode with_length r_len r_pos]. replace (l =? 0) with false by lia. f_equal.
           ++ lia.
           ++ reflexivity.
           ++ unfold RecvBytes. cbn [r_mode with_length r_len r_pos]. replace (l =? 0) with false by lia. cbn [negb].
              fold (len (x :: body)). change (len (x :: body)) with l. rewrite Z.add_0_l.
              replace (l >? l) with false by lia. replace (l >=? l) with true by lia. reflexivity.
           ++ intros _. exists (h_status h). split; [reflexivity|exact N].
  - assert (E : response_length m (hd_resp i h) = Ok (true, None)).
    { rewrite with_body_length by exact B. unfold declared_length.
      rewrite !GetHeader_field, T, (not_identity c v P Lc). reflexivity. }
    set (r2 := with_length (hd_resp i h) true None 0 RESP_CHUNK_SIZE).
    destruct (chunks_runs m body trailer text Ch r2 rest eq_refl eq_refl) as (ch & l & p & R).
    { exists (h_status h). split; [reflexivity|exact N]. }
    eexists. split; [|eapply head_final; [exact H|exact N| |exact R]].
    + constructor; try reflexivity. cbn [r_headers with_length with_headers r2 hd_resp]. now rewrite set_fields_app.
    + unfold headers_end. rewrite E. reflexivity.
Qed.
Theorem until_close_runs m i h s data : head_text h s -> until_close m h -> ~ (100 <= h_status h <= 199) ->
  let rf := with_length (hd_resp i h) false (Some 0) 0 RESP_DATA in
  forever rf /\ runs m (new_resp i) (s ++ data) [] rf data.
Proof.
  intros H (B & T & L) N rf. split; [now split|].
  eapply head_final; [exact H|exact N| |apply runs_stop; right; now split].
  unfold headers_end. rewrite with_body_length by exact B. unfold declared_length, GetContentLength.
  rewrite !GetHeader_field, T, L. reflexivity.
Qed.
End Runs.
