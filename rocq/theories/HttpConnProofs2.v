(** The loop of the connection follows the response on the whole text. *)
From Coq Require Import Lia Zify.
From Verif Require Import Py Iso Dec XmlUtils Xsd Imscp Shapes HttpCore HttpParams HttpSpec OdPage HttpConn HttpConnSpec HttpConnProofs.
Open Scope Z_scope.

(** A connection that reads response j of request i *)
Definition st (c : conn) (i j : nat) (q : req) (r : resp) (buf : list str) (log : list event) : conn :=
  mkConn (upd (c_reqs c) i q) (upd (c_resps c) j r) (c_queue c) (c_request c) (c_respq c) (c_response c)
    (c_mode c) (c_waiting c) (c_socket c) (c_send c) buf (len (concat buf)) (c_wire c) log.

Definition written (q : req) : str := match q_resStream q with Some s => s | None => concat (q_resBuffer q) end.
(** What stays of a request while its response is read *)
Record kept (q q' : req) : Prop := mkKept {
  k_method : q_method q' = q_method q;
  k_url : q_url q' = q_url q;
  k_headers : q_headers q' = q_headers q;
  k_auto : q_auto q' = q_auto q;
  k_try : q_try q' = q_try q;
  k_response : q_response q' = q_response q;
  k_connected : q_connected q' = q_connected q;
  k_kind : match q_resStream q, q_resStream q' with None, None | Some _, Some _ => True | _, _ => False end }.
Lemma kept_refl q : kept q q.
Proof. constructor; try reflexivity. destruct (q_resStream q); exact I. Qed.
Lemma kept_trans a b c : kept a b -> kept b c -> kept a c.
Proof.
  intros [] []. constructor; try congruence.
  destruct (q_resStream a), (q_resStream b), (q_resStream c); tauto.
Qed.
Lemma WriteResponse_kept q s : kept q (WriteResponse q s).
Proof.
  unfold WriteResponse. destruct s as [|x s]; [apply kept_refl|]. cbn [nonempty].
  destruct (q_resStream q) eqn:X; constructor; try reflexivity; cbn; rewrite X; exact I.
Qed.
Lemma WriteResponse_written q s : written (WriteResponse q s) = written q ++ s.
Proof.
  unfold WriteResponse, written. destruct s as [|x s]; cbn [nonempty]; [now rewrite app_nil_r|].
  destruct (q_resStream q) eqn:X; cbn; [reflexivity|]. rewrite concat_app. cbn. now rewrite app_nil_r.
Qed.
Lemma WriteResponse_done q s : q_done (WriteResponse q s) = q_done q.
Proof. unfold WriteResponse. destruct (nonempty s); [|reflexivity]. destruct (q_resStream q); reflexivity. Qed.
Lemma collect_kept q : kept q (collect q).
Proof.
  unfold collect. destruct (q_resStream q) eqn:X; constructor; try reflexivity; cbn; rewrite X; exact I.
Qed.
Lemma outcome_kept q s e d : kept q (q_outcome q s e d).
Proof. constructor; try reflexivity. cbn. destruct (q_resStream q); exact I. Qed.
(** A request that waits for response j after it was sent *)
Record quiet (q : req) (j : nat) : Prop := mkQuiet {
  qu_response : q_response q = Some j;
  qu_connected : q_connected q = false;
  qu_try : q_try q = false }.
Lemma quiet_kept q q' j : quiet q j -> kept q q' -> quiet q' j.
Proof. intros [] []. constructor; congruence. Qed.

Section Loop.
Context {ia : Prop}.
Notation runs := (runs_with ia).
Variable E : env.
Variables (c0 : conn) (i j : nat).
Hypothesis Hi : (i < length (c_reqs c0))%nat.
Hypothesis Hj : (j < length (c_resps c0))%nat.
Hypothesis Hresp : c_response c0 = Some j.

Notation St := (st c0 i j).

Lemma getq_st q r buf log : getq i (St q r buf log) = (Ok q, St q r buf log).
Proof. unfold getq, st. cbn [c_reqs]. now rewrite nth_upd. Qed.
Lemma getr_st q r buf log : getr j (St q r buf log) = (Ok r, St q r buf log).
Proof. unfold getr, st. cbn [c_resps]. now rewrite nth_upd. Qed.
Lemma putq_st q r buf log q' : putq i q' (St q r buf log) = (Ok tt, St q' r buf log).
Proof. unfold putq, modify, set_reqs, st. cbn. now rewrite upd_upd. Qed.
Lemma putr_st q r buf log r' : putr j r' (St q r buf log) = (Ok tt, St q r' buf log).
Proof. unfold putr, modify, set_resps, st. cbn. now rewrite upd_upd. Qed.
Lemma event_st q r buf log e : modify (add_event e) (St q r buf log) = (Ok tt, St q r buf (log ++ [e])).
Proof. reflexivity. Qed.
Lemma recv_st q r buf log buf' n : n = len (concat buf') ->
  modify (set_recv buf' n) (St q r buf log) = (Ok tt, St q r buf' log).
Proof. intros ->. reflexivity. Qed.
Lemma bind_ok {A B} (m : M A) (k : A -> M B) c a c' : m c = (Ok a, c') -> mbind m k c = k a c'.
Proof. intros H. unfold mbind. now rewrite H. Qed.

(** Finished, for a status that is left to the caller *)
Lemma Finished_st q r buf log : q_try q = false -> plain_status q (q_status q) ->
  Finished E i (St q r buf log) =
  (Ok tt, St (q_outcome q (q_status q) (q_error q) true) r buf (log ++ [EvFinished i (q_status q)])).
Proof.
  intros T [P1 P2]. unfold Finished.
  erewrite bind_ok; [|apply getq_st]. erewrite bind_ok; [|apply putq_st]. erewrite bind_ok; [|apply event_st].
  rewrite T. erewrite bind_ok; [|reflexivity].
  destruct (q_auto q && (300 <=? q_status q) && (q_status q <=? 399) &&
            (negb (q_status q =? 302) || upper_in (q_method q) [lit "GET"; lit "HEAD"])) eqn:X.
  - exfalso. destruct P2 as [P2|P2]; [rewrite P2 in X; discriminate|]. apply P2. lia.
  - destruct (q_status q =? 401) eqn:Y; [lia|reflexivity].
Qed.

(** The response is done. *)
Definition closed (q : req) (s : Z) (err : option cause) : req := q_outcome (collect (q_outcome q s err (q_done q))) s err true.
Lemma collect_fields q : q_status (collect q) = q_status q /\ q_error (collect q) = q_error q /\
  q_try (collect q) = q_try q /\ q_auto (collect q) = q_auto q /\ q_connected (collect q) = q_connected q.
Proof. unfold collect. destruct (q_resStream q); now cbn. Qed.
Lemma ResponseFinished_final q r buf log err s : quiet q j -> r_status r = Some s -> ~ (100 <= s <= 199) ->
  plain_status q s ->
  ResponseFinished E i err (St q r buf log) = (Ok tt, St (closed q s err) r buf (log ++ [EvFinished i s])).
Proof.
  intros [Q1 Q2 Q3] S N P. unfold ResponseFinished.
  erewrite bind_ok; [|apply getq_st]. rewrite Q1. erewrite bind_ok; [|reflexivity].
  erewrite bind_ok; [|apply getr_st]. rewrite S. erewrite bind_ok; [|apply putq_st].
  destruct ((100 <=? s) && (s <=? 199)) eqn:X; [lia|]. rewrite Q2.
  destruct (collect_fields (q_outcome q s err (q_done q))) as (C1 & C2 & C3 & C4 & C5).
  rewrite Finished_st.
  - unfold closed. rewrite C1, C2. reflexivity.
  - rewrite C3. exact Q3.
  - rewrite C1. cbn [q_status q_outcome]. destruct P as [P1 P2]. split; [exact P1|]. rewrite C4. exact P2.
Qed.
Lemma response_finished_final q r buf log s : quiet q j -> r_request r = i -> r_status r = Some s -> ~ (100 <= s <= 199) ->
  plain_status q s ->
  response_finished E j (St q r buf log) = (Ok tt, St (closed q s None) r buf (log ++ [EvFinished i s])).
Proof.
  intros Q R S N P. unfold response_finished. erewrite bind_ok; [|apply getr_st]. rewrite R.
  erewrite bind_ok; [|apply ResponseFinished_final; eassumption]. rewrite S.
  destruct ((100 <=? s) && (s <=? 199)) eqn:X; [lia|]. reflexivity.
Qed.
(** An interim response is done. *)
Lemma response_finished_interim q r buf log s : quiet q j -> r_request r = i -> r_status r = Some s -> 100 <= s <= 199 ->
  response_finished E j (St q r buf log) =
  (Ok tt, St (collect (q_outcome q s None (q_done q))) (new_resp i) buf log).
Proof.
  intros [Q1 Q2 Q3] R S N. unfold response_finished. erewrite bind_ok; [|apply getr_st]. rewrite R.
  erewrite bind_ok.
  2:{ unfold ResponseFinished. erewrite bind_ok; [|apply getq_st]. rewrite Q1. erewrite bind_ok; [|reflexivity].
      erewrite bind_ok; [|apply getr_st]. rewrite S. erewrite bind_ok; [|apply putq_st].
      destruct ((100 <=? s) && (s <=? 199)) eqn:X; [|lia]. rewrite Q2. reflexivity. }
  rewrite S. destruct ((100 <=? s) && (s <=? 199)) eqn:X; [|lia]. apply putr_st.
Qed.

Lemma recv_loop_S f last c : c_response c = Some j ->
  recv_loop E (S f) last c =
  (r <~ getr j ;;
   match RecvNeeds r with
   | NLine =>
       match find_line (concat (c_recv c)) with
       | Some (line, rest) =>
           _ <~ modify (set_recv (if nonempty rest then [rest] else []) (len rest)) ;;
           _ <~ deliver_line E j line ;;
           recv_loop E f last
       | None => ret false
       end
   | NBytes n =>
       if (n >? maxint) || (n <? - maxint - 1) then raise HTTPException
       else if n =? 0 then
         if c_size c >? 0 then
           _ <~ modify (set_recv [] 0) ;;
           _ <~ deliver_bytes E j (concat (c_recv c)) ;;
           recv_loop E f (Some (concat (c_recv c)))
         else ret false
       else if c_size c <? n then ret false
       else if n >? 0 then
         '(bytes, rest) <~ lift (take_bytes n 0 [] (c_recv c)) ;;
         _ <~ modify (set_recv rest (c_size c - len bytes)) ;;
         _ <~ deliver_bytes E j bytes ;;
         recv_loop E f (Some bytes)
       else
         match last with
         | None => raise NameError
         | Some bytes =>
             _ <~ modify (set_recv (c_recv c) (c_size c - len bytes)) ;;
             _ <~ deliver_bytes E j bytes ;;
             recv_loop E f (Some bytes)
         end
   | NNone => ret true
   end) c.
Proof. intros H. cbn [recv_loop]. unfold mbind at 1, get. rewrite H. reflexivity. Qed.

(** No body before the headers have been read *)
Definition early (r : resp) : Prop := r_mode r = RESP_STATUS \/ r_mode r = RESP_HEADER.
Definition fits (q : req) (r : resp) : Prop := (early r -> written q = []) /\ (r_mode r = RESP_STATUS -> r_status r = None).

Lemma RecvLine_late m r l r' : ~ early r -> RecvLine m r l = Ok r' -> ~ early r'.
Proof.
  unfold RecvLine, early. intros N H. destruct (r_mode r) eqn:Mo; try (exfalso; apply N; tauto); try discriminate.
  - unfold chunk_size, bind in H. destruct (WordParser _ _); [|discriminate]. destruct (fst _); [|discriminate].
    destruct (int16 _); [|discriminate]. injection H as <-. destruct (_ =? 0); cbn; intuition discriminate.
  - unfold bind in H. destruct (ReadHeader r l) as [r1|] eqn:X; [|discriminate]. injection H as <-.
    destruct (str_eqb l CRLF); cbn; [intuition discriminate|].
    unfold ReadHeader in X. destruct (str_eqb l CRLF); [injection X as <-; cbn; rewrite Mo; intuition discriminate|].
    destruct (ParseLWS l), (r_curr r) as [[]|]; try destruct (split_colon l); try discriminate;
      injection X as <-; cbn; rewrite Mo; intuition discriminate.
Qed.
Lemma RecvLine_moves m r l r' : RecvLine m r l = Ok r' -> r_mode r' <> RESP_STATUS.
Proof.
  unfold RecvLine, status_line, ReadHeader, headers_end, chunk_size, with_mode, with_headers, with_length, bind. intros H.
  repeat match goal with
  | H : context [match ?x with _ => _ end] |- _ => destruct x eqn:?
  | H : Ok _ = Ok _ |- _ => injection H as <-
  | H : Err _ = Ok _ |- _ => discriminate
  end; subst; cbn [r_mode] in *; try discriminate; try congruence.
Qed.
Lemma fits_line m q r l r' : fits q r -> RecvLine m r l = Ok r' -> fits q r'.
Proof.
  intros [F F'] H. split.
  - intros Er'. apply F. destruct (r_mode r) eqn:Mo; unfold early; rewrite Mo; try tauto; exfalso;
      refine (RecvLine_late m r l r' _ H Er'); unfold early; rewrite Mo; intuition discriminate.
  - intros X. now apply RecvLine_moves in H.
Qed.
Lemma NBytes_late r n : RecvNeeds r = NBytes n -> ~ early r.
Proof. unfold RecvNeeds, early. intros H [X|X]; rewrite X in H; discriminate. Qed.
Lemma RecvBytes_late r n d r' out : RecvNeeds r = NBytes n -> RecvBytes r d = (r', out) -> ~ early r'.
Proof.
  intros N H. pose proof (NBytes_late _ _ N) as L. unfold RecvBytes in H. unfold early in *.
  destruct (r_mode r) eqn:Mo; try (injection H as <- <-; rewrite Mo; tauto).
  - injection H as <- <-. cbn. destruct (_ >=? _); intuition discriminate.
  - destruct (negb _); injection H as <- <-; cbn; [destruct (_ >=? _)|]; intuition discriminate.
Qed.
Lemma RecvBytes_keeps r d r' out : RecvBytes r d = (r', out) -> r_request r' = r_request r /\ r_status r' = r_status r.
Proof.
  unfold RecvBytes. destruct (r_mode r); try (intros H; injection H as <- <-; now split).
  destruct (negb _); intros H; injection H as <- <-; now split.
Qed.

Definition done_needs (r : resp) : is_done r = true -> RecvNeeds r = NNone.
Proof. unfold is_done, RecvNeeds. now destruct (r_mode r). Qed.
Lemma needs_done r : RecvNeeds r = NNone -> is_done r = true.
Proof.
  unfold is_done, RecvNeeds. destruct (r_mode r); try discriminate; try reflexivity;
    destruct (r_len r) as [z|]; try destruct (z =? 0); discriminate.
Qed.
Lemma runs_done_inv m r s w rf left : runs m r s w rf left -> RecvNeeds r = NNone -> w = [] /\ rf = r /\ left = s.
Proof.
  intros H N. pose proof (needs_done _ N) as D. destruct H as [r s Hn|r line rest r' w rf left Hn|r line rest r' s w rf left Ha Hm
    |r n data rest r' out w rf left Hn]; try congruence.
  - auto.
  - unfold is_done in D. rewrite Hm in D. discriminate.
Qed.

(** Deliveries *)
Lemma deliver_line_more q r buf log line r' : r_request r = i -> RecvLine (q_method q) r line = Ok r' -> is_done r' = false ->
  deliver_line E j line (St q r buf log) = (Ok tt, St q r' buf log).
Proof.
  intros R L D. unfold deliver_line. erewrite bind_ok; [|apply getr_st]. rewrite R.
  erewrite bind_ok; [|apply getq_st]. rewrite L. erewrite bind_ok; [|reflexivity].
  erewrite bind_ok; [|apply putr_st]. rewrite D. reflexivity.
Qed.
Lemma deliver_line_final q r buf log line r' s : quiet q j -> r_request r = i -> RecvLine (q_method q) r line = Ok r' ->
  is_done r' = true -> r_status r' = Some s -> ~ (100 <= s <= 199) -> plain_status q s ->
  deliver_line E j line (St q r buf log) = (Ok tt, St (closed q s None) r' buf (log ++ [EvFinished i s])).
Proof.
  intros Q R L D S N P. unfold deliver_line. erewrite bind_ok; [|apply getr_st]. rewrite R.
  erewrite bind_ok; [|apply getq_st]. rewrite L. erewrite bind_ok; [|reflexivity].
  erewrite bind_ok; [|apply putr_st]. rewrite D. apply response_finished_final; try assumption.
  rewrite (RecvLine_request _ _ _ _ L). exact R.
Qed.
Lemma deliver_line_interim q r buf log line r' s : quiet q j -> r_request r = i -> RecvLine (q_method q) r line = Ok r' ->
  is_done r' = true -> r_status r' = Some s -> 100 <= s <= 199 ->
  deliver_line E j line (St q r buf log) =
  (Ok tt, St (collect (q_outcome q s None (q_done q))) (new_resp i) buf log).
Proof.
  intros Q R L D S N. unfold deliver_line. erewrite bind_ok; [|apply getr_st]. rewrite R.
  erewrite bind_ok; [|apply getq_st]. rewrite L. erewrite bind_ok; [|reflexivity].
  erewrite bind_ok; [|apply putr_st]. rewrite D. eapply response_finished_interim; try eassumption.
  rewrite (RecvLine_request _ _ _ _ L). exact R.
Qed.
Lemma deliver_bytes_more q r buf log data r' out : r_request r = i -> RecvBytes r data = (r', out) -> is_done r' = false ->
  deliver_bytes E j data (St q r buf log) = (Ok tt, St (WriteResponse q out) r' buf log).
Proof.
  intros R L D. unfold deliver_bytes. erewrite bind_ok; [|apply getr_st]. rewrite L.
  erewrite bind_ok; [|apply putr_st]. rewrite R. erewrite bind_ok; [|apply getq_st].
  erewrite bind_ok; [|apply putq_st]. rewrite D. reflexivity.
Qed.
Lemma deliver_bytes_final q r buf log data r' out s : quiet q j -> r_request r = i -> RecvBytes r data = (r', out) ->
  is_done r' = true -> r_status r' = Some s -> ~ (100 <= s <= 199) -> plain_status q s ->
  deliver_bytes E j data (St q r buf log) =
  (Ok tt, St (closed (WriteResponse q out) s None) r' buf (log ++ [EvFinished i s])).
Proof.
  intros Q R L D S N P. unfold deliver_bytes. erewrite bind_ok; [|apply getr_st]. rewrite L.
  erewrite bind_ok; [|apply putr_st]. rewrite R. erewrite bind_ok; [|apply getq_st].
  erewrite bind_ok; [|apply putq_st]. rewrite D.
  pose proof (WriteResponse_kept q out) as K. apply response_finished_final; try assumption.
  - eapply quiet_kept; eassumption.
  - destruct (RecvBytes_keeps _ _ _ _ L) as [L1 _]. now rewrite L1.
  - destruct P as [P1 P2]. split; [exact P1|]. rewrite (k_auto _ _ K). exact P2.
Qed.

(** What the caller is told at the end *)
Record told (q q' : req) (s : Z) (err : option cause) (body : str) : Prop := mkTold {
  t_kept : kept q q';
  t_status : q_status q' = s;
  t_error : q_error q' = err;
  t_body : received_body q' = body;
  t_done : q_done q' = true }.
Lemma closed_told q s err : told q (closed q s err) s err (written q).
Proof.
  unfold closed. constructor; try reflexivity.
  - eapply kept_trans; [|apply outcome_kept]. eapply kept_trans; [apply outcome_kept|apply collect_kept].
  - unfold received_body, written, collect. cbn. destruct (q_resStream q) eqn:X; cbn; [now rewrite X|reflexivity].
Qed.
Lemma told_kept a b q s err body : kept a b -> told b q s err body -> told a q s err body.
Proof. intros K []. constructor; try assumption. eapply kept_trans; eassumption. Qed.

(** Statuses for which the request is finished without more ado *)
Definition handed (q : req) (r : resp) : Prop := forall s, r_status r = Some s -> plain_status q s.

Lemma plain_kept q q' s : kept q q' -> plain_status q s -> plain_status q' s.
Proof. intros K [P1 P2]. split; [exact P1|]. rewrite (k_auto _ _ K). exact P2. Qed.

Lemma runs_status m r s w rf left : runs m r s w rf left -> ~ early r -> r_status rf = r_status r.
Proof.
  induction 1 as [r s Hn|r line rest r' w rf left Hn Hf Hl Hfin Hr IH|r line rest r' s w rf left Ha Hm Hf Hl Hd Hs Hi' Hr IH
    |r n data rest r' out w rf left Hn Hmax Hlen Hb Hfin Hr IH]; intros L.
  - reflexivity.
  - rewrite (IH (RecvLine_late _ _ _ _ L Hl)). clear - L Hl. unfold RecvLine in Hl.
    destruct (r_mode r) eqn:Mo; try (exfalso; apply L; unfold early; tauto); try discriminate.
    + unfold chunk_size, bind in Hl. destruct (WordParser _ _); [|discriminate]. destruct (fst _); [|discriminate].
      destruct (int16 _); [|discriminate]. injection Hl as <-. destruct (_ =? 0); reflexivity.
    + unfold bind in Hl. destruct (ReadHeader r line) as [r1|] eqn:X; [|discriminate]. injection Hl as <-.
      assert (r_status r1 = r_status r) as A.
      { unfold ReadHeader in X. destruct (str_eqb line CRLF); [injection X as <-; reflexivity|].
        destruct (ParseLWS line), (r_curr r) as [[]|]; try destruct (split_colon line); try discriminate;
          injection X as <-; reflexivity. }
      destruct (str_eqb line CRLF); exact A.
  - exfalso. apply L. unfold early. tauto.
  - rewrite (IH (RecvBytes_late _ _ _ _ _ Hn Hb)). now destruct (RecvBytes_keeps _ _ _ _ Hb).
Qed.

(** The loop on the bytes that have arrived: it stops at the end of the response, or it waits
    for more. *)
Definition outcome_ok (m : str) (q : req) (t : str) (log : list event)
  (w : str) (rf : resp) (left : str) (res : result bool * conn) : Prop :=
  (exists q' buf' s, res = (Ok true, St q' rf buf' (log ++ [EvFinished i s])) /\ RecvNeeds rf = NNone /\
     r_status rf = Some s /\ told q q' s None (written q ++ w) /\ left = concat buf' ++ t) \/
  (exists q' r' buf' w1 w2, res = (Ok false, St q' r' buf' log) /\ RecvNeeds r' <> NNone /\ ~ forever r' /\
     kept q q' /\ q_done q' = q_done q /\ written q' = written q ++ w1 /\ w = w1 ++ w2 /\ fits q' r' /\ r_request r' = i /\
     runs m r' (concat buf' ++ t) w2 rf left /\ t <> []) \/
  (exists q' pos data buf', res = (Ok false, St q' (with_length rf (r_chunked rf) (Some 0) pos RESP_DATA) buf' log) /\
     concat buf' = [] /\ r_request rf = i /\ forever rf /\ kept q q' /\ q_done q' = q_done q /\ written q' = written q ++ w ++ data /\ left = data ++ t).

Lemma forever_needs r : forever r -> RecvNeeds r = NBytes 0.
Proof. intros [F1 F2]. unfold RecvNeeds. now rewrite F1, F2. Qed.
Lemma done_or r : is_done r = true \/ is_done r = false. Proof. destruct (is_done r); tauto. Qed.
Lemma concat_opt (rest : str) : concat (if nonempty rest then [rest] else []) = rest.
Proof. destruct rest; [reflexivity|]. cbn. now rewrite app_nil_r. Qed.

Lemma collect_written q : written q = [] -> written (collect q) = [].
Proof. unfold collect, written. destruct (q_resStream q) eqn:X; cbn; [now rewrite X|reflexivity]. Qed.
Lemma collect_done q : q_done (collect q) = q_done q.
Proof. unfold collect. now destruct (q_resStream q). Qed.


Lemma RecvBytes_forever r data : forever r ->
  RecvBytes r data = (with_length r (r_chunked r) (Some 0) (r_pos r + len data) RESP_DATA, data).
Proof. intros [F1 F2]. unfold RecvBytes. rewrite F1, F2. reflexivity. Qed.
Lemma with_length_same r : forever r -> with_length r (r_chunked r) (Some 0) (r_pos r) RESP_DATA = r.
Proof. intros [F1 F2]. destruct r. cbn in *. subst. reflexivity. Qed.

(** The loop while reading until the connection is closed *)
Lemma loop_forever q r buf log f last : forever r -> r_request r = i -> (2 <= f)%nat ->
  exists q' pos buf', recv_loop E f last (St q r buf log) =
    (Ok false, St q' (with_length r (r_chunked r) (Some 0) pos RESP_DATA) buf' log) /\ concat buf' = [] /\
    kept q q' /\ q_done q' = q_done q /\ written q' = written q ++ concat buf.
Proof.
  intros F R Hf. destruct f as [|[|f]]; try lia.
  rewrite recv_loop_S by exact Hresp. erewrite bind_ok; [|apply getr_st]. rewrite (forever_needs _ F).
  change ((0 >? maxint) || (0 <? - maxint - 1)) with false. cbn [Z.eqb c_size c_recv st].
  destruct (len (concat buf) >? 0) eqn:X.
  - erewrite bind_ok; [|apply recv_st; reflexivity].
    erewrite bind_ok.
    2:{ apply deliver_bytes_more; [exact R|apply RecvBytes_forever; exact F|reflexivity]. }
    set (r1 := with_length r (r_chunked r) (Some 0) (r_pos r + len (concat buf)) RESP_DATA).
    assert (F1 : forever r1) by (split; reflexivity).
    exists (WriteResponse q (concat buf)), (r_pos r + len (concat buf)), []. split.
    + rewrite recv_loop_S by exact Hresp. erewrite bind_ok; [|apply getr_st]. rewrite (forever_needs _ F1).
      change ((0 >? maxint) || (0 <? - maxint - 1)) with false. cbn [Z.eqb c_size st concat].
      change (len [] >? 0) with false. reflexivity.
    + split; [reflexivity|]. split; [apply WriteResponse_kept|].
      split; [apply WriteResponse_done|apply WriteResponse_written].
  - exists q, (r_pos r), buf. assert (concat buf = []) as B.
    { destruct (concat buf); [reflexivity|]. unfold len in X. cbn in X. lia. }
    split.
    + rewrite with_length_same by exact F. reflexivity.
    + split; [exact B|]. split; [apply kept_refl|]. split; [reflexivity|]. now rewrite B, app_nil_r.
Qed.

Lemma NLine_not_forever r : RecvNeeds r = NLine -> ~ forever r /\ RecvNeeds r <> NNone.
Proof. intros N. split; [intros F; rewrite (forever_needs _ F) in N|]; congruence. Qed.
Lemma header_line_needs r : r_mode r = RESP_HEADER -> RecvNeeds r = NLine.
Proof. intros H. unfold RecvNeeds. now rewrite H. Qed.

Lemma loop_line_wait m q r line rest w rf left buf t log f last :
  runs m r (line ++ rest) w rf left -> RecvNeeds r = NLine -> find_line (line ++ rest) = Some (line, rest) ->
  concat buf ++ t = line ++ rest -> r_request r = i -> fits q r -> find_line (concat buf) = None ->
  outcome_ok m q t log w rf left (recv_loop E (S f) last (St q r buf log)).
Proof.
  intros Hr N F B R Fi X. destruct (NLine_not_forever _ N) as [NF NN].
  rewrite recv_loop_S by exact Hresp. erewrite bind_ok; [|apply getr_st]. rewrite N. cbn [c_recv st]. rewrite X.
  right. left. exists q, r, buf, [], w. repeat split; try assumption; try reflexivity; try apply Fi.
  - destruct (q_resStream q); exact I.
  - now rewrite app_nil_r.
  - rewrite B. exact Hr.
  - intros ->. rewrite app_nil_r in B. congruence.
Qed.

Theorem loop_runs m r s w rf left : runs m r s w rf left ->
  forall buf t q log f last, concat buf ++ t = s -> q_method q = m -> quiet q j -> r_request r = i -> fits q r ->
  RecvNeeds r <> NNone -> (forall k, r_status rf = Some k -> plain_status q k) ->
  (length (concat buf) + 2 <= f)%nat ->
  outcome_ok m q t log w rf left (recv_loop E f last (St q r buf log)).
Proof.
  intros Hruns.
  induction Hruns as [r s Hn|r line rest r' w rf left Hn Hf Hl Hfin Hr IH|r line rest r' s w rf left Ha Hm Hf Hl Hd Hs Hi' Hr IH
    |r n data rest r' out w rf left Hn Hmax Hlen Hb Hfin Hr IH];
    intros buf t q log f last B Mq Q R Fi NN P Hfuel.
  - destruct Hn as [Hn|Hn]; [congruence|].
    destruct (loop_forever q r buf log f last Hn R) as (q' & pos & buf' & L & B' & K & D & W); [lia|].
    right. right. exists q', pos, (concat buf), buf'. repeat split; try apply K; try apply Hn; try assumption.
    now rewrite B.
  - destruct f as [|f]; [lia|].
    destruct (find_line_split (concat buf) t line rest) as [X|(rest' & X & Er)]; [exact B|now rewrite B| |].
    + eapply loop_line_wait; try eassumption. eapply runs_line; eassumption.
    + destruct (find_line_short _ _ _ X) as [Lline Ebuf].
      rewrite recv_loop_S by exact Hresp. erewrite bind_ok; [|apply getr_st]. rewrite Hn. cbn [c_recv st]. rewrite X.
      erewrite bind_ok; [|apply recv_st; now rewrite concat_opt].
      pose proof (RecvLine_request _ _ _ _ Hl) as R'. rewrite R in R'.
      destruct (done_or r') as [D|D].
      * destruct (Hfin D) as (k & Sk & Nk). pose proof (done_needs _ D) as N'.
        destruct (runs_done_inv _ _ _ _ _ _ Hr N') as (-> & -> & ->).
        erewrite bind_ok; [|eapply deliver_line_final; try eassumption; [now rewrite Mq|now apply P]].
        destruct f as [|f]; [lia|].
        rewrite recv_loop_S by exact Hresp. erewrite bind_ok; [|apply getr_st]. rewrite N'.
        left. eexists _, _, k. split; [reflexivity|]. split; [exact N'|]. split; [exact Sk|]. split.
        -- rewrite app_nil_r. apply closed_told.
        -- rewrite concat_opt. exact Er.
      * erewrite bind_ok; [|eapply deliver_line_more; try eassumption; now rewrite Mq].
        eapply IH; try eassumption.
        -- now rewrite concat_opt.
        -- eapply fits_line; eassumption.
        -- intros N'. apply needs_done in N'. congruence.
        -- rewrite concat_opt. apply (f_equal (@length Z)) in Ebuf. rewrite app_length in Ebuf. lia.
  - pose proof (header_line_needs _ Hm) as Hn. destruct f as [|f]; [lia|].
    destruct (find_line_split (concat buf) t line rest) as [X|(rest' & X & Er)]; [exact B|now rewrite B| |].
    + eapply loop_line_wait; try eassumption. eapply runs_interim; eassumption.
    + destruct (find_line_short _ _ _ X) as [Lline Ebuf].
      rewrite recv_loop_S by exact Hresp. erewrite bind_ok; [|apply getr_st]. rewrite Hn. cbn [c_recv st]. rewrite X.
      erewrite bind_ok; [|apply recv_st; now rewrite concat_opt].
      erewrite bind_ok; [|eapply deliver_line_interim; try eassumption; now rewrite Mq].
      assert (W : written q = []) by (apply Fi; now right).
      set (q1 := collect (q_outcome q s None (q_done q))).
      assert (K : kept q q1) by (eapply kept_trans; [apply outcome_kept|apply collect_kept]).
      assert (W1 : written q1 = []) by (apply collect_written; exact W).
      assert (D1 : q_done q1 = q_done q) by (unfold q1; rewrite collect_done; reflexivity).
      rewrite R in IH.
      assert (O : outcome_ok m q1 t log w rf left
                (recv_loop E f last (St q1 (new_resp i) (if nonempty rest' then [rest'] else []) log))).
      { apply IH.
        - now rewrite concat_opt.
        - rewrite (k_method _ _ K). exact Mq.
        - eapply quiet_kept; eassumption.
        - reflexivity.
        - split; [intros _; exact W1|reflexivity].
        - cbn. discriminate.
        - intros k Sk. eapply plain_kept; [exact K|now apply P].
        - rewrite concat_opt. apply (f_equal (@length Z)) in Ebuf. rewrite app_length in Ebuf. lia. }
      destruct O as [(q' & buf' & k & -> & O2 & O3 & O4 & O5)|[(q' & r2 & buf' & w1 & w2 & -> & O2 & O3 & O4 & O5 & O6 & O7)|
        (q' & pos & data & buf' & -> & O1 & OR & O2 & O3 & O4 & O5 & O6)]].
      * left. exists q', buf', k. split; [reflexivity|]. split; [exact O2|]. split; [exact O3|]. split; [|exact O5].
        rewrite W, <- W1. eapply told_kept; eassumption.
      * right. left. exists q', r2, buf', w1, w2. split; [reflexivity|]. split; [exact O2|]. split; [exact O3|].
        split; [eapply kept_trans; eassumption|]. split; [congruence|]. split; [|exact O7].
        rewrite O6, W1, W. reflexivity.
      * right. right. exists q', pos, data, buf'. split; [reflexivity|]. split; [exact O1|]. split; [exact OR|]. split; [exact O2|].
        split; [eapply kept_trans; eassumption|]. split; [congruence|]. split; [|exact O6].
        rewrite O5, W1, W. reflexivity.
  - assert (NF : ~ forever r) by (intros F; rewrite (forever_needs _ F) in Hn; injection Hn; lia).
    destruct f as [|f]; [lia|].
    rewrite recv_loop_S by exact Hresp. erewrite bind_ok; [|apply getr_st]. rewrite Hn.
    assert ((n >? maxint) || (n <? - maxint - 1) = false) as ->.
    { apply orb_false_iff. unfold maxint in *. split; lia. }
    destruct (n =? 0) eqn:Z0; [lia|]. cbn [c_size c_recv st].
    destruct (len (concat buf) <? n) eqn:X.
    + right. left. exists q, r, buf, [], (out ++ w). repeat split; try assumption; try reflexivity; try apply Fi.
      * destruct (q_resStream q); exact I.
      * now rewrite app_nil_r.
      * rewrite B. eapply runs_bytes; eassumption.
      * intros ->. rewrite app_nil_r in B. rewrite B, len_app in X. pose proof (len_nonneg rest). lia.
    + destruct (n >? 0) eqn:Zp; [|lia].
      destruct (take_bytes_ok n buf 0 []) as (restb & T & Er); [lia|lia|].
      rewrite Z.sub_0_r in T, Er. cbn [concat app] in T.
      assert (data = firstn (Z.to_nat n) (concat buf) /\ rest = skipn (Z.to_nat n) (concat buf) ++ t) as [Ed Et].
      { assert (length data = Z.to_nat n) as Ld by (unfold len in Hlen; lia).
        assert (concat buf = firstn (Z.to_nat n) (concat buf) ++ skipn (Z.to_nat n) (concat buf)) as Sp
          by (symmetry; apply firstn_skipn).
        rewrite Sp, <- app_assoc in B.
        assert (length (firstn (Z.to_nat n) (concat buf)) = Z.to_nat n) as Lf.
        { rewrite firstn_length. unfold len in X. lia. }
        apply app_eq_parts in B; [|congruence]. destruct B as [B1 B2]. now rewrite B1, B2. }
      rewrite <- Ed in T. rewrite T. erewrite bind_ok; [|reflexivity]. cbn beta iota.
      assert (Lr : len (concat buf) - len data = len (concat restb)).
      { rewrite Er, Ed. unfold len. rewrite skipn_length, firstn_length. unfold len in X. lia. }
      erewrite bind_ok; [|apply recv_st; exact Lr].
      destruct (RecvBytes_keeps _ _ _ _ Hb) as [R' S']. rewrite R in R'.
      destruct (done_or r') as [D|D].
      * destruct (Hfin D) as (k & Sk & Nk). pose proof (done_needs _ D) as N'.
        destruct (runs_done_inv _ _ _ _ _ _ Hr N') as (-> & -> & ->).
        erewrite bind_ok; [|eapply deliver_bytes_final; try eassumption; now apply P].
        destruct f as [|f]; [lia|].
        rewrite recv_loop_S by exact Hresp. erewrite bind_ok; [|apply getr_st]. rewrite N'.
        left. eexists _, _, k. split; [reflexivity|]. split; [exact N'|]. split; [exact Sk|]. split.
        -- rewrite app_nil_r, <- WriteResponse_written. eapply told_kept; [apply WriteResponse_kept|apply closed_told].
        -- rewrite Er. exact Et.
      * erewrite bind_ok; [|eapply deliver_bytes_more; eassumption].
        pose proof (WriteResponse_kept q out) as K. pose proof (WriteResponse_written q out) as W.
        assert (O : outcome_ok m (WriteResponse q out) t log w rf left
                  (recv_loop E f (Some data) (St (WriteResponse q out) r' restb log))).
        { apply IH.
          - now rewrite Er, Et.
          - rewrite (k_method _ _ K). exact Mq.
          - eapply quiet_kept; eassumption.
          - exact R'.
          - pose proof (RecvBytes_late _ _ _ _ _ Hn Hb) as Nl. split; [tauto|]. intros Y. exfalso. apply Nl. now left.
          - intros N'. apply needs_done in N'. congruence.
          - intros k Sk. eapply plain_kept; [exact K|now apply P].
          - unfold len in *. lia. }
        destruct O as [(q' & buf' & k & -> & O2 & O3 & O4 & O5)|[(q' & r2 & buf' & w1 & w2 & -> & O2 & O3 & O4 & O5 & O6 & O7 & O8)|
          (q' & pos & data' & buf' & -> & O1 & OR & O2 & O3 & O4 & O5 & O6)]].
        -- left. exists q', buf', k. split; [reflexivity|]. split; [exact O2|]. split; [exact O3|]. split; [|exact O5].
           rewrite app_assoc, <- W. eapply told_kept; eassumption.
        -- right. left. exists q', r2, buf', (out ++ w1), w2. split; [reflexivity|]. split; [exact O2|]. split; [exact O3|].
           split; [eapply kept_trans; eassumption|]. split; [rewrite O5; apply WriteResponse_done|].
           split; [now rewrite O6, W, app_assoc|]. split; [now rewrite O7, app_assoc|]. exact O8.
        -- right. right. exists q', pos, data', buf'. split; [reflexivity|]. split; [exact O1|]. split; [exact OR|]. split; [exact O2|].
           split; [eapply kept_trans; eassumption|]. split; [rewrite O4; apply WriteResponse_done|]. split; [|exact O6].
           rewrite O5, W, <- !app_assoc. reflexivity.
Qed.
End Loop.
