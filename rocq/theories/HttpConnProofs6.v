(** One response and several, from the pieces to what the caller sees. *)
From Coq Require Import Lia Zify.
From Verif Require Import Py Iso Dec XmlUtils XmlChars XmlCharsSpec Xsd XsdSpec XsdProofs Imscp ImscpProofs Shapes ShapesProofs2
  HttpCore HttpParams HttpSpec HttpProofs HttpProofs2 OdPage OdPageProofs HttpConn HttpConnSpec HttpConnProofs HttpConnProofs2
  HttpConnProofs3 HttpConnProofs4 HttpConnProofs5.
Open Scope Z_scope.

Lemma nth_lt {A} (l : list A) i x : nth_error l i = Some x -> (i < length l)%nat.
Proof. intros H. apply nth_error_Some. congruence. Qed.
Lemma awaited_st c i j q : awaited c i j q -> quiescent c ->
  c = st c i j q (new_resp i) (c_recv c) (c_log c) /\ (i < length (c_reqs c))%nat /\ (j < length (c_resps c))%nat /\
  sent_all c /\ quiet q j /\ written q = [].
Proof.
  intros [W1 W2 (W3 & W4 & W5) [W6 W7]] (Q1 & Q2 & Q3 & Q4 & Q5 & Q6 & Q7).
  split; [|split; [now apply nth_lt in W2|split; [now apply nth_lt in W1|split; [now repeat split|split; [now constructor|]]]]].
  - unfold st. rewrite (upd_same _ _ _ W1), (upd_same _ _ _ W2), Q6. destruct c. cbn in *. now subst.
  - unfold written. destruct W7 as [-> | ->]; [now rewrite W6|reflexivity].
Qed.

(** The Connection field can be read. *)
Lemma text_words s : plain_text s -> exists w, WordParser true s = Ok w.
Proof.
  intros [T L]. destruct (lexify s T L) as (l & O & R & _). exists (wordsof true l). rewrite <- R. now apply WordParser_render.
Qed.
Lemma closing_ok i h trailer rf : complete i h trailer rf -> connection_ok (h_fields h ++ trailer) -> exists b, closing rf b.
Proof.
  intros C K. unfold closing, GetConnection. rewrite (cp_headers _ _ _ _ C), GetHeader_field. unfold connection_ok in K.
  destruct (field (lit "Connection") (h_fields h ++ trailer)) as [[|x v]|]; try (eexists; eexists; split; reflexivity).
  destruct (text_words _ K) as [w ->]. eexists. eexists. split; reflexivity.
Qed.
Lemma before_11_iff v : before_11 (Some v) = false <-> at_least_11 v.
Proof.
  unfold before_11, version_cmp, at_least_11. cbn [v_major v_minor].
  destruct (v_major v <? 1) eqn:A; [cbn; lia|]. destruct (v_major v >? 1) eqn:B; [cbn; lia|].
  destruct (v_minor v <? 1) eqn:C; [cbn; lia|]. destruct (v_minor v >? 1) eqn:D; cbn; lia.
Qed.
Lemma closing_persists i h trailer rf b : complete i h trailer rf -> closing rf b -> persists h trailer -> b = false.
Proof.
  intros C (t & G & ->) [P1 P2]. unfold GetConnection in G. rewrite (cp_headers _ _ _ _ C), GetHeader_field, P2 in G.
  injection G as <-. rewrite (cp_version _ _ _ _ C). now apply before_11_iff.
Qed.
Lemma persists_ok h trailer : persists h trailer -> connection_ok (h_fields h ++ trailer).
Proof. intros [_ P]. unfold connection_ok. now rewrite P. Qed.
Lemma lower_char_text c : 97 <= lower1 c <= 122 -> token_char c.
Proof.
  unfold lower1, token_char, separator. cbn [In]. destruct ((c >=? 65) && (c <=? 90)) eqn:X; lia.
Qed.
Lemma close_token c : lower c = lit "close" -> is_token c.
Proof.
  intros H. split; [intros ->; discriminate|]. apply Forall_forall. intros x Hx. apply lower_char_text.
  assert (In (lower1 x) (lit "close")) as I by (rewrite <- H; now apply in_map).
  change (lit "close") with [99; 108; 111; 115; 101] in I. cbn [In] in I. lia.
Qed.
Lemma spaces_repeat a : Forall (eq 32) a -> a = repeat 32 (length a).
Proof. induction 1 as [|x a <- _ IH]; [reflexivity|]. cbn. now f_equal. Qed.
Lemma closing_closes i h trailer rf b : complete i h trailer rf -> closing rf b -> closes h trailer -> b = true.
Proof.
  intros C (t & G & ->) [V|(a & c & F & A & L)].
  - rewrite (cp_version _ _ _ _ C). destruct (before_11 (Some (h_version h))) eqn:X; [now rewrite orb_true_r|].
    apply before_11_iff in X. tauto.
  - unfold GetConnection in G. rewrite (cp_headers _ _ _ _ C), GetHeader_field, F in G.
    pose proof (close_token c L) as T. destruct T as [Nc Tc].
    assert (exists l, render l = a ++ c /\ lex_ok l /\ wordsof true l = [Some c]) as (l & R & O & W).
    { rewrite (spaces_repeat a A). destruct (length a) as [|k].
      - exists [LTok c]. split; [unfold render; cbn; now rewrite app_nil_r|]. split; [now repeat split|reflexivity].
      - exists [LSps k; LTok c]. split; [unfold render; cbn; now rewrite app_nil_r|]. split; [now repeat split|reflexivity]. }
    assert (WordParser true (a ++ c) = Ok [Some c]) as Wp by (rewrite <- R, <- W; now apply WordParser_render).
    destruct (a ++ c) as [|x v] eqn:E.
    { apply app_eq_nil in E. destruct E as [_ E]. congruence. }
    rewrite Wp in G. cbn [bind] in G. injection G as <-. unfold ParseTokenList. cbn [length token_list].
    assert (more [Some c] = true) as -> by (unfold more; cbn; destruct c; [congruence|reflexivity]).
    rewrite IsToken_tok by (split; assumption). cbn [cWord next tl token_list fst map more]. rewrite L. reflexivity.
Qed.

(** One response, when others may follow *)
Lemma one_response E c i j q h interim s body trailer text l :
  quiescent c -> c_response c = Some j -> awaited c i j q ->
  interim_text interim -> head_text h s -> framed (q_method q) h body trailer text -> ~ (100 <= h_status h <= 199) ->
  plain_status q (h_status h) -> connection_ok (h_fields h ++ trailer) -> delivers l (interim ++ s ++ text) ->
  persists h trailer \/ c_respq c = [] ->
  exists q' rf buf' b, complete i h trailer rf /\ closing rf b /\ concat buf' = [] /\ told q q' (h_status h) None body /\
    run E (tasks l) c = (if b then shut else fun c => c) (next_response (st c i j q' rf buf' (c_log c ++ [EvFinished i (h_status h)]))).
Proof.
  intros Qc Rc Aw It Ht Fr Ns Ps Cn (ss & F2 & Ne & Es) Hb.
  destruct (awaited_st c i j q Aw Qc) as (Ec & Hi & Hj & Sa & Qq & Wq).
  destruct (framed_runs (ia := True) (q_method q) i h s body trailer text [] Ht Fr Ns) as (rf & Cp & R).
  destruct (closing_ok i h trailer rf Cp Cn) as (b & Cl).
  rewrite app_nil_r in R. apply (interim_runs (ia := True) _ _ _ _ _ _ _ I It) in R.
  destruct (reads_runs (ia := True) E c i j Hi Hj Rc Sa (q_method q) body rf b (cp_needs _ _ _ _ Cp) Cl) with
    (l := l) (ss := ss) (q := q) (r := new_resp i) (buf := c_recv c) (log := c_log c) (w' := body)
    as (q' & k & buf' & B & St & T & Rn); try assumption; try reflexivity; try discriminate.
  - intros ->. destruct Hb as [X|X]; [|exact X]. pose proof (closing_persists _ _ _ _ _ Cp Cl X). discriminate.
  - destruct Qc as (_ & _ & _ & _ & _ & Q6 & _). rewrite Q6, Es. exact R.
  - intros ->. destruct Ht. destruct interim; cbn in Es; discriminate.
  - split; [intros _; exact Wq|reflexivity].
  - rewrite (cp_status _ _ _ _ Cp). intros x X. injection X as <-. exact Ps.
  - now rewrite Wq.
  - rewrite (cp_status _ _ _ _ Cp) in St. injection St as <-.
    exists q', rf, buf', b. repeat (split; [assumption|]). rewrite Ec at 1. exact Rn.
Qed.

Lemma complete_shows c i j h trailer rf log buf q' : (j < length (c_resps c))%nat -> complete i h trailer rf ->
  shows (next_response (st c i j q' rf buf log)) j h trailer.
Proof.
  intros Hj Cp. exists rf. split; [cbn; now apply nth_upd|]. destruct Cp as [C1 C2 C3 C4 C5 C6]. repeat split; try assumption.
  intros name. rewrite C5. apply GetHeader_field.
Qed.
Lemma told_outcome c i j q q' r buf log s err body : (i < length (c_reqs c))%nat -> told q q' s err body ->
  outcome (next_response (st c i j q' r buf log)) i s err body.
Proof. intros Hi []. exists q'. split; [cbn; now apply nth_upd|]. now repeat split. Qed.

Theorem answer_read E c i j q h interim s body trailer text l :
  waiting c i j q -> interim_text interim -> head_text h s -> framed (q_method q) h body trailer text ->
  ~ (100 <= h_status h <= 199) -> plain_status q (h_status h) -> connection_ok (h_fields h ++ trailer) ->
  delivers l (interim ++ s ++ text) ->
  let c' := run E (tasks l) c in
  outcome c' i (h_status h) None body /\ shows c' j h trailer /\ others_kept c c' i /\
  c_log c' = c_log c ++ [EvFinished i (h_status h)] /\ c_wire c' = c_wire c /\ free c' /\
  (persists h trailer -> c_socket c' = true) /\ (closes h trailer -> c_socket c' = false).
Proof.
  intros (Qc & Rc & Rq & Aw) It Ht Fr Ns Ps Cn D.
  destruct (one_response E c i j q h interim s body trailer text l) as (q' & rf & buf' & b & Cp & Cl & B & T & Rn); try assumption.
  { now right. }
  destruct (awaited_st c i j q Aw Qc) as (_ & Hi & Hj & _).
  cbv zeta. rewrite Rn.
  pose proof (told_outcome c i j q q' rf buf' (c_log c ++ [EvFinished i (h_status h)]) _ _ _ Hi T) as O.
  pose proof (complete_shows c i j h trailer rf (c_log c ++ [EvFinished i (h_status h)]) buf' q' Hj Cp) as Sh.
  assert (K : others_kept c (next_response (st c i j q' rf buf' (c_log c ++ [EvFinished i (h_status h)]))) i).
  { intros k Nk. cbn. apply nth_upd_other. congruence. }
  destruct Qc as (Q1 & Q2 & Q3 & Q4 & Q5 & Q6 & Q7).
  destruct b.
  - refine (conj O (conj Sh (conj K (conj eq_refl (conj eq_refl (conj _ (conj _ (fun _ => eq_refl)))))))).
    + unfold free, shut, next_response. cbn. rewrite Rq. repeat split; assumption.
    + intros P. exfalso. pose proof (closing_persists _ _ _ _ _ Cp Cl P). discriminate.
  - refine (conj O (conj Sh (conj K (conj eq_refl (conj eq_refl (conj _ (conj (fun _ => Q4) _))))))).
    + unfold free, next_response. cbn. rewrite Rq, B. repeat split; assumption.
    + intros P. exfalso. pose proof (closing_closes _ _ _ _ _ Cp Cl P). discriminate.
Qed.

(** A response that goes on until the server closes the connection *)
Lemma run_app E l1 l2 c : run E (tasks (l1 ++ l2)) c = run E (tasks l2) (run E (tasks l1) c).
Proof. unfold run, tasks. now rewrite map_app, fold_left_app. Qed.
(** Once the status is known it is the status of the response, when there are no interim ones. *)
Lemma header_status m r s w rf left : runs_with False m r s w rf left -> r_mode r <> RESP_STATUS -> r_status rf = r_status r.
Proof.
  intros R N. destruct (r_mode r) eqn:Mo; try congruence;
    try (eapply runs_status; [exact R|unfold early; rewrite Mo; intuition discriminate]).
  revert Mo. clear N. induction R as [r s Hn|r line rest r' w rf left Hn Hf Hl Hfin Hr IH|r line rest r' s w rf left Ha
    |r n data rest r' out w rf left Hn Hmax Hlen Hb Hfin Hr IH]; intros Mo.
  - reflexivity.
  - assert (r_status r' = r_status r) as <-.
    { unfold RecvLine in Hl. rewrite Mo in Hl. unfold bind in Hl. destruct (ReadHeader r line) as [r1|] eqn:X; [|discriminate].
      assert (r_status r1 = r_status r) as A.
      { unfold ReadHeader in X. destruct (str_eqb line CRLF); [injection X as <-; reflexivity|].
        destruct (ParseLWS line), (r_curr r) as [[]|]; try destruct (split_colon line); try discriminate;
          injection X as <-; reflexivity. }
      destruct (str_eqb line CRLF); [|injection Hl as <-; exact A].
      apply headers_end_status in Hl. destruct Hl as [Hl _]. now rewrite Hl. }
    pose proof (RecvLine_moves _ _ _ _ Hl) as Mv. destruct (r_mode r') eqn:Mo'; try congruence;
      try (eapply runs_status; [exact Hr|unfold early; rewrite Mo'; intuition discriminate]).
    now apply IH.
  - tauto.
  - unfold RecvNeeds in Hn. rewrite Mo in Hn. discriminate.
Qed.
Theorem answer_until_close E c i j q h interim s body l a :
  waiting c i j q -> interim_text interim -> head_text h s -> until_close (q_method q) h ->
  ~ (100 <= h_status h <= 199) -> plain_status q (h_status h) ->
  delivers l (interim ++ s ++ body) -> hangs_up a ->
  let c' := run E (tasks (l ++ [a])) c in
  outcome c' i (h_status h) None body /\ shows c' j h [] /\ others_kept c c' i /\
  c_log c' = c_log c ++ [EvFinished i (h_status h)] /\ c_wire c' = c_wire c /\ free c' /\ c_socket c' = false.
Proof.
  intros (Qc & Rc & Rq & Aw) It Ht U Ns Ps (ss & F2 & Ne & Es) Ha.
  destruct (awaited_st c i j q Aw Qc) as (Ec & Hi & Hj & Sa & Qq & Wq).
  destruct (until_close_runs (ia := True) (q_method q) i h s body Ht U Ns) as (F & R).
  set (rf := with_length (hd_resp i h) false (Some 0) 0 RESP_DATA) in *.
  apply (interim_runs (ia := True) _ _ _ _ _ _ _ I It) in R.
  assert (Q6 : concat (c_recv c) = []) by apply Qc.
  destruct (reads_part (ia := True) E c i j Hi Hj Rc Sa (q_method q) l ss F2 Ne q (new_resp i) (c_recv c) (c_log c) [] rf body [])
    as (q' & r' & buf' & w1 & Rn & K & D & Rr & W & _ & O); try assumption; try reflexivity; try discriminate.
  - rewrite Q6, Es, app_nil_r. exact R.
  - now right.
  - split; [intros _; exact Wq|reflexivity].
  - intros x X. injection X as <-. exact Ps.
  - left. intros ->. destruct Ht. destruct interim; cbn in Es; discriminate.
  - destruct O as [(w2 & _ & _ & _ & X & _)|(pos & data & _ & -> & B & -> & Ed)]; [congruence|].
    rewrite app_nil_r in Ed. subst data. cbn [app] in W.
    destruct (hang_up E c i j Hi Hj Rc Sa Rq a q' (with_length rf (r_chunked rf) (Some 0) pos RESP_DATA) buf' (c_log c) Ha) as (q2 & H1 & H2).
    { eapply quiet_kept; eassumption. } { exact Rr. }
    { cbn [r_status with_length rf hd_resp]. split; [exact Ns|]. eapply plain_kept; eassumption. }
    cbn [r_status with_length rf hd_resp] in H1, H2. rewrite Wq in W. cbn [app] in W. rewrite W in H2.
    assert (Rn' : run E (tasks l) c = st c i j q' (with_length rf (r_chunked rf) (Some 0) pos RESP_DATA) buf' (c_log c))
      by (rewrite Ec at 1; exact Rn).
    cbv zeta. rewrite run_app, Rn', H1.
    refine (conj _ (conj _ (conj _ (conj eq_refl (conj eq_refl (conj _ eq_refl)))))).
    + exists q2. split; [cbn; now apply nth_upd|]. destruct H2. now repeat split.
    + eexists. split; [cbn; now apply nth_upd|]. repeat split. intros name. cbn. rewrite app_nil_r. apply GetHeader_field.
    + intros k Nk. cbn. apply nth_upd_other. congruence.
    + unfold free. cbn. destruct Qc as (Q1 & Q2 & Q3 & Q4 & Q5 & _). now repeat split.
Qed.

(** A response that is cut off *)
Theorem answer_cut E c i j q h s body trailer text l a sofar missing :
  waiting c i j q -> head_text h s -> framed (q_method q) h body trailer text ->
  ~ (100 <= h_status h <= 199) -> plain_status q (h_status h) ->
  sofar ++ missing = s ++ text -> missing <> [] -> delivers l sofar -> hangs_up a ->
  let c' := run E (tasks (l ++ [a])) c in
  exists q', nth_error (c_reqs c') i = Some q' /\ q_error q' = None /\ q_done q' = true /\ free c' /\ c_socket c' = false /\
    ((q_status q' = 0 /\ c_log c' = c_log c ++ [EvFinished i 0]) \/
     (q_status q' = h_status h /\ c_log c' = c_log c ++ [EvFinished i (h_status h)] /\
      exists more, body = received_body q' ++ more)).
Proof.
  intros (Qc & Rc & Rq & Aw) Ht Fr Ns Ps Et Nm (ss & F2 & Ne & Es) Ha.
  destruct (awaited_st c i j q Aw Qc) as (Ec & Hi & Hj & Sa & Qq & Wq).
  destruct (framed_runs (ia := False) (q_method q) i h s body trailer text [] Ht Fr Ns) as (rf & Cp & R).
  rewrite app_nil_r in R.
  assert (Q6 : concat (c_recv c) = []) by apply Qc.
  destruct (reads_part (ia := False) E c i j Hi Hj Rc Sa (q_method q) l ss F2 Ne q (new_resp i) (c_recv c) (c_log c) body rf [] missing)
    as (q' & r' & buf' & w1 & Rn & K & D & Rr & W & Fi & O); try assumption; try reflexivity; try discriminate.
  - rewrite Q6, Es. cbn [app]. rewrite Et. exact R.
  - left. split; [apply Cp|]. now split.
  - split; [intros _; exact Wq|reflexivity].
  - rewrite (cp_status _ _ _ _ Cp). intros x X. injection X as <-. exact Ps.
  - right. split; [exact Nm|]. intros [X _]. discriminate.
  - destruct O as [(w2 & Ew & Rr2 & _ & _ & _)|(pos & data & [Y1 Y2] & _)].
    2:{ pose proof (cp_needs _ _ _ _ Cp) as X. unfold RecvNeeds in X. rewrite Y1, Y2 in X. discriminate. }
    assert (Hs : r_status r' = None \/ r_status r' = Some (h_status h)).
    { destruct (r_mode r') eqn:Mo; try (right; rewrite <- (cp_status _ _ _ _ Cp); symmetry; eapply header_status; [exact Rr2|congruence]).
      left. now apply Fi. }
    destruct (hang_up E c i j Hi Hj Rc Sa Rq a q' r' buf' (c_log c) Ha) as (q2 & H1 & H2).
    { eapply quiet_kept; eassumption. } { exact Rr. }
    { destruct Hs as [-> | ->]; [exact I|]. split; [exact Ns|]. eapply plain_kept; eassumption. }
    assert (Rn' : run E (tasks l) c = st c i j q' r' buf' (c_log c)) by (rewrite Ec at 1; exact Rn).
    cbv zeta. rewrite run_app, Rn', H1.
    exists q2. split; [cbn; now apply nth_upd|].
    rewrite Wq in W. cbn [app] in W.
    assert (Fr2 : forall x, free (shut (set_responses [] None x)) <-> (c_queue x = [] /\ c_request x = None)).
    { intros x. unfold free. cbn. tauto. }
    destruct Qc as (Q1 & Q2 & Q3 & Q4 & Q5 & _).
    destruct Hs as [Hs|Hs]; rewrite Hs in H2; rewrite Hs.
    + destruct H2 as (_ & H2 & H3 & H4). refine (conj H3 (conj H4 (conj _ (conj eq_refl _)))).
      * apply Fr2. now split.
      * left. split; [exact H2|reflexivity].
    + destruct H2 as [_ H2 H3 H4 H5]. refine (conj H3 (conj H5 (conj _ (conj eq_refl _)))).
      * apply Fr2. now split.
      * right. split; [exact H2|]. split; [reflexivity|]. exists w2. now rewrite H4, W.
Qed.

(** Several responses, one after the other *)
Definition finishes (xs : list exchange) : list event :=
  map (fun x => EvFinished (x_req x) (h_status (x_head x))) xs.
Theorem answers_in_order E xs : forall c,
  quiescent c -> c_response c = hd_error (map x_resp xs) -> c_respq c = tl (map x_resp xs) ->
  NoDup (map x_req xs) -> NoDup (map x_resp xs) -> Forall (exchange_ok c) xs ->
  let c' := run E (tasks (concat (map x_pieces xs))) c in
  Forall (fun x => outcome c' (x_req x) (h_status (x_head x)) None (x_body x) /\
                   shows c' (x_resp x) (x_head x) (x_trailer x)) xs /\
  (forall k, ~ In k (map x_req xs) -> nth_error (c_reqs c') k = nth_error (c_reqs c) k) /\
  (forall k, ~ In k (map x_resp xs) -> nth_error (c_resps c') k = nth_error (c_resps c) k) /\
  c_log c' = c_log c ++ finishes xs /\ c_wire c' = c_wire c /\ free c' /\ c_socket c' = true.
Proof.
  induction xs as [|x xs IH]; intros c Qc Rc Rq N1 N2 F.
  - cbn. destruct Qc as (Q1 & Q2 & Q3 & Q4 & Q5 & Q6 & Q7). rewrite app_nil_r. cbn in Rc, Rq.
    refine (conj (Forall_nil _) (conj (fun _ _ => eq_refl) (conj (fun _ _ => eq_refl) (conj eq_refl (conj eq_refl (conj _ Q4)))))).
    now repeat split.
  - cbn [map] in *. cbn [hd_error tl] in Rc, Rq. inversion N1 as [|? ? N1a N1b]; subst. inversion N2 as [|? ? N2a N2b]; subst.
    apply Forall_cons_iff in F. destruct F as [(q & Aw & interim & s & text & It & Ht & Fr & Ns & Ps & Pe & D) F].
    assert (Cn : connection_ok (h_fields (x_head x) ++ x_trailer x)).
    { destruct Pe as [_ Pe]. unfold connection_ok. now rewrite Pe. }
    destruct (one_response E c (x_req x) (x_resp x) q (x_head x) interim s (x_body x) (x_trailer x) text (x_pieces x))
      as (q' & rf & buf' & b & Cp & Cl & B & T & Rn); try assumption. { now left. }
    pose proof (closing_persists _ _ _ _ _ Cp Cl Pe) as ->. cbv beta iota in Rn.
    destruct (awaited_st c (x_req x) (x_resp x) q Aw Qc) as (_ & Hi & Hj & _).
    set (c1 := next_response (st c (x_req x) (x_resp x) q' rf buf' (c_log c ++ [EvFinished (x_req x) (h_status (x_head x))]))) in *.
    assert (Q' : quiescent c1).
    { destruct Qc as (Q1 & Q2 & Q3 & Q4 & Q5 & Q6 & Q7). unfold quiescent, c1. cbn. rewrite B. now repeat split. }
    assert (O1 : outcome c1 (x_req x) (h_status (x_head x)) None (x_body x)) by now apply (told_outcome c _ _ q).
    assert (S1 : shows c1 (x_resp x) (x_head x) (x_trailer x)) by now apply (complete_shows c (x_req x)).
    destruct (IH c1) as (H1 & H2 & H3 & H4 & H5 & H6 & H7); try assumption.
    + unfold c1, next_response. cbn. now rewrite Rq.
    + unfold c1, next_response. cbn. now rewrite Rq.
    + rewrite Forall_forall in F |- *. intros y Hy. destruct (F y Hy) as (qy & [A1 A2 A3 A4] & Fy).
      exists qy. split; [|exact Fy]. constructor; try assumption; unfold c1, next_response; cbn.
      * rewrite nth_upd_other; [exact A1|]. intros Ex. apply N2a. rewrite Ex. now apply in_map.
      * rewrite nth_upd_other; [exact A2|]. intros Ex. apply N1a. rewrite Ex. now apply in_map.
    + cbn [concat]. rewrite run_app, Rn. cbv zeta in *.
      split; [|split; [|split; [|split; [|split; [|split]]]]]; try assumption.
      * constructor; [|exact H1]. split.
        -- destruct O1 as (qo & O1 & O2). exists qo. split; [|exact O2]. now rewrite H2.
        -- destruct S1 as (ro & O1' & O2). exists ro. split; [|exact O2]. now rewrite H3.
      * intros k Hk. rewrite H2 by (intros X; apply Hk; now right). unfold c1. cbn. apply nth_upd_other.
        intros X. apply Hk. now left.
      * intros k Hk. rewrite H3 by (intros X; apply Hk; now right). unfold c1. cbn. apply nth_upd_other.
        intros X. apply Hk. now left.
      * rewrite H4. unfold c1. cbn. now rewrite <- app_assoc.
Qed.
