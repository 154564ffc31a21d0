(** The iterations of the connection while one response is read. *)
From Coq Require Import Lia Zify.
From Verif Require Import Py Iso Dec XmlUtils Xsd Imscp Shapes HttpCore HttpParams HttpSpec OdPage HttpConn HttpConnSpec HttpConnProofs
  HttpConnProofs2.
Open Scope Z_scope.

(** Everything has been sent. *)
Definition sent_all (c : conn) : Prop :=
  c_queue c = [] /\ c_request c = None /\ c_mode c = REQ_READY /\ c_socket c = true /\ c_send c = [].
Lemma iteration_section E a c j : sent_all c -> c_response c = Some j -> iteration E a c = response_section E a c.
Proof.
  intros (A1 & A2 & A3 & A4 & A5) R. unfold iteration.
  assert (start_next E c = (Ok tt, c)) as X by (unfold start_next, mbind, get; rewrite A1; reflexivity).
  erewrite bind_ok; [|exact X]. erewrite bind_ok; [|reflexivity]. rewrite A2, R, A4.
  erewrite bind_ok; [|reflexivity]. now rewrite A5, A3.
Qed.

(** The response after which the connection is closed *)
Definition closing (r : resp) (b : bool) : Prop :=
  exists tokens, GetConnection (r_headers r) = Ok tokens /\
    b = existsb (str_eqb (lit "close")) tokens || before_11 (r_version r).
(** The next response *)
Definition next_response (c : conn) : conn := set_responses (tl (c_respq c)) (hd_error (c_respq c)) c.
Definition shut (c : conn) : conn := set_mode REQ_READY (c_waiting c) (set_recv [] 0 (set_send [] (set_socket false (c_wire c) c))).
Lemma Close_idle E c err : c_request c = None -> c_response c = None -> Close E err c = (Ok tt, shut c).
Proof.
  intros A B. unfold Close. erewrite bind_ok; [|reflexivity]. rewrite A. erewrite bind_ok; [|reflexivity].
  erewrite bind_ok; [|reflexivity].
  erewrite bind_ok.
  2:{ cbn [close_responses]. erewrite bind_ok; [|reflexivity]. rewrite B. reflexivity. }
  reflexivity.
Qed.

Section One.
Context {ia : Prop}.
Notation runs := (runs_with ia).
Variable E : env.
Variables (c0 : conn) (i j : nat).
Hypothesis Hi : (i < length (c_reqs c0))%nat.
Hypothesis Hj : (j < length (c_resps c0))%nat.
Hypothesis Hresp : c_response c0 = Some j.
Hypothesis Hsent : sent_all c0.
Notation St := (st c0 i j).

Lemma st_sent q r buf log : sent_all (St q r buf log).
Proof. exact Hsent. Qed.

(** One piece of text *)
Lemma piece_loop q r buf log s : s <> [] ->
  exists f, (length (concat (buf ++ [s])) + 2 <= f)%nat /\
  RecvResponseData E (Data s) (St q r buf log) = recv_loop E f None (St q r (buf ++ [s]) log).
Proof.
  intros N. exists (4 * length (concat (buf ++ [s])) + 4)%nat. split; [lia|].
  unfold RecvResponseData. destruct s as [|x s]; [congruence|].
  erewrite bind_ok; [|apply (f_equal2 pair eq_refl)]. 2:reflexivity.
  erewrite bind_ok; [|reflexivity]. cbn [c_recv set_recv st].
  f_equal. unfold set_recv, st. cbn. f_equal. rewrite concat_app, len_app. cbn. now rewrite app_nil_r.
Qed.
Lemma section_more a s q r buf log q' r' buf' log' : reads a s ->
  RecvResponseData E (Data s) (St q r buf log) = (Ok false, St q' r' buf' log') ->
  task E a (St q r buf log) = (Ok tt, St q' r' buf' log').
Proof.
  intros [B R] H. unfold task. rewrite (iteration_section _ _ _ j) by (exact Hsent || exact Hresp).
  unfold response_section. erewrite bind_ok; [|reflexivity]. cbn [c_response st]. rewrite Hresp, B, R.
  erewrite bind_ok; [|exact H]. reflexivity.
Qed.
Lemma section_done a s q r buf log q' r' buf' log' b : reads a s -> closing r' b -> (b = true -> c_respq c0 = []) ->
  RecvResponseData E (Data s) (St q r buf log) = (Ok true, St q' r' buf' log') ->
  task E a (St q r buf log) =
  (Ok tt, (if b then shut else fun c => c) (next_response (St q' r' buf' log'))).
Proof.
  intros [B R] (tokens & G & Eb) Nb H. unfold task. rewrite (iteration_section _ _ _ j) by (exact Hsent || exact Hresp).
  unfold response_section. erewrite bind_ok; [|reflexivity]. cbn [c_response st]. rewrite Hresp, B, R.
  erewrite bind_ok; [|exact H]. cbv beta iota. erewrite bind_ok; [|reflexivity]. cbv beta.
  erewrite bind_ok.
  2:{ cbn [c_response st]. rewrite Hresp. erewrite bind_ok; [|apply getr_st; assumption].
      rewrite G. erewrite bind_ok; [|reflexivity]. rewrite <- Eb. reflexivity. }
  cbn [c_respq c_response c_mode st]. rewrite Hresp. destruct Hsent as (A1 & A2 & A3 & A4 & A5).
  rewrite A3, orb_false_r. destruct (c_respq c0) as [|k l] eqn:X.
  - erewrite bind_ok; [|reflexivity].
    unfold next_response. cbn [c_respq st]. rewrite X. cbn [tl hd_error].
    destruct b; [|reflexivity]. rewrite Close_idle; [reflexivity|exact A2|reflexivity].
  - erewrite bind_ok; [|reflexivity].
    unfold next_response. cbn [c_respq st]. rewrite X. cbn [tl hd_error].
    destruct b; [specialize (Nb eq_refl); congruence|]. reflexivity.
Qed.

Lemma run_task a l c c' : task E a c = (Ok tt, c') -> run E (tasks (a :: l)) c = run E (tasks l) c'.
Proof. intros H. unfold run, tasks. cbn [map fold_left step]. now rewrite H. Qed.

(** The whole of a response that says itself where it ends *)
Theorem reads_runs m w rf b : RecvNeeds rf = NNone -> closing rf b -> (b = true -> c_respq c0 = []) ->
  forall l ss, Forall2 reads l ss -> Forall (fun s => s <> []) ss ->
  forall q r buf log w',
  runs m r (concat buf ++ concat ss) w' rf [] -> ss <> [] ->
  q_method q = m -> quiet q j -> r_request r = i -> fits q r -> RecvNeeds r <> NNone ->
  (forall k, r_status rf = Some k -> plain_status q k) -> w = written q ++ w' ->
  exists q' k buf', concat buf' = [] /\ r_status rf = Some k /\ told q q' k None w /\
    run E (tasks l) (St q r buf log) =
    (if b then shut else fun c => c) (next_response (St q' rf buf' (log ++ [EvFinished i k]))).
Proof.
  intros Nf Cl Nb l ss F2. induction F2 as [|a s l ss Ra F2 IH]; intros Ne q r buf log w' Hr Nss Mq Q R Fi N P Ew; [congruence|].
  inversion Ne as [|? ? Hs Ne']; subst x l0.
  destruct (piece_loop q r buf log s Hs) as (f & Hf & Hp).
  assert (concat (buf ++ [s]) ++ concat ss = concat buf ++ concat (s :: ss)) as Ec.
  { rewrite concat_app. cbn. now rewrite app_nil_r, <- app_assoc. }
  pose proof (loop_runs E c0 i j Hi Hj Hresp _ _ _ _ _ _ Hr (buf ++ [s]) (concat ss) q log f None Ec Mq Q R Fi N P Hf) as O.
  rewrite <- Hp in O.
  destruct O as [(q' & buf' & k & O1 & O2 & O3 & O4 & O5)|[(q' & r2 & buf' & w1 & w2 & O1 & O2 & O3 & O4 & O5 & O6 & O7 & O8 & O9 & O10 & O11)|
        (q' & pos & data & buf' & O1 & _ & _ & O2 & _)]].
  - symmetry in O5. apply app_eq_nil in O5. destruct O5 as [O5 O6].
    assert (ss = []) as ->.
    { destruct ss as [|x ss]; [reflexivity|]. inversion Ne' as [|? ? Hx _]; subst. cbn in O6. destruct x; [congruence|discriminate]. }
    inversion F2 as [Z1 Z2|]. exists q', k, buf'. split; [exact O5|]. split; [exact O3|]. split; [rewrite Ew; exact O4|].
    erewrite run_task; [|eapply section_done; eassumption]. reflexivity.
  - erewrite run_task; [|eapply section_more; eassumption].
    destruct ss as [|x ss].
    + now destruct O11.
    + destruct (IH Ne' q' r2 buf' log w2) as (q2 & k & buf2 & I1 & I2 & I3 & I4); try assumption; try congruence.
      * rewrite (k_method _ _ O4). exact Mq.
      * eapply quiet_kept; eassumption.
      * intros k Sk. eapply plain_kept; [exact O4|now apply P].
      * rewrite O6, Ew, O7, <- app_assoc. reflexivity.
      * exists q2, k, buf2. split; [exact I1|]. split; [exact I2|]. split; [eapply told_kept; eassumption|exact I4].
  - exfalso. rewrite (forever_needs _ O2) in Nf. discriminate.
Qed.

(** A response that goes on until the connection is closed *)
Lemma reads_forever : forall l ss, Forall2 reads l ss -> Forall (fun s => s <> []) ss ->
  forall q r buf log, forever r -> concat buf = [] -> r_request r = i ->
  exists q' pos buf', run E (tasks l) (St q r buf log) =
    St q' (with_length r (r_chunked r) (Some 0) pos RESP_DATA) buf' log /\ concat buf' = [] /\
    kept q q' /\ q_done q' = q_done q /\ written q' = written q ++ concat ss.
Proof.
  intros l ss F2. induction F2 as [|a s l ss Ra F2 IH]; intros Ne q r buf log F B R.
  - exists q, (r_pos r), buf. rewrite with_length_same by exact F. repeat split; try assumption.
    + destruct (q_resStream q); exact I.
    + cbn. now rewrite app_nil_r.
  - inversion Ne as [|? ? Hs Ne']; subst x l0.
    destruct (piece_loop q r buf log s Hs) as (f & Hf & Hp).
    destruct (loop_forever E c0 i j Hi Hj Hresp q r (buf ++ [s]) log f None F R) as (q' & pos & buf' & L & B' & K & D & W); [lia|].
    rewrite <- Hp in L. erewrite run_task; [|eapply section_more; eassumption].
    destruct (IH Ne' q' (with_length r (r_chunked r) (Some 0) pos RESP_DATA) buf' log) as (q2 & pos2 & buf2 & I1 & I2 & I3 & I4 & I5).
    { split; reflexivity. } { exact B'. } { exact R. }
    exists q2, pos2, buf2. split; [exact I1|]. split; [exact I2|]. split; [eapply kept_trans; eassumption|].
    split; [congruence|]. rewrite I5, W, concat_app, B. cbn. now rewrite app_nil_r, app_assoc.
Qed.

(** A part of a response *)
Theorem reads_part m : forall l ss, Forall2 reads l ss -> Forall (fun s => s <> []) ss ->
  forall q r buf log w rf left t,
  runs m r (concat buf ++ concat ss ++ t) w rf left ->
  (RecvNeeds rf = NNone /\ left = [] /\ t <> []) \/ forever rf ->
  q_method q = m -> quiet q j -> r_request r = i -> fits q r -> RecvNeeds r <> NNone ->
  (forall k, r_status rf = Some k -> plain_status q k) -> (ss <> [] \/ (t <> [] /\ ~ forever r)) ->
  exists q' r' buf' w1, run E (tasks l) (St q r buf log) = St q' r' buf' log /\ kept q q' /\ q_done q' = q_done q /\
    r_request r' = i /\ written q' = written q ++ w1 /\ fits q' r' /\
    ((exists w2, w = w1 ++ w2 /\ runs m r' (concat buf' ++ t) w2 rf left /\ RecvNeeds r' <> NNone /\ t <> [] /\ ~ forever r') \/
     (exists pos data, forever rf /\ r' = with_length rf (r_chunked rf) (Some 0) pos RESP_DATA /\ concat buf' = [] /\
        w1 = w ++ data /\ left = data ++ t)).
Proof.
  intros l ss F2. induction F2 as [|a s l ss Ra F2 IH]; intros Ne q r buf log w rf left t Hr Cs Mq Q R Fi N P Ss.
  - exists q, r, buf, []. split; [reflexivity|]. split; [apply kept_refl|]. split; [reflexivity|]. split; [exact R|].
    split; [now rewrite app_nil_r|]. split; [exact Fi|]. destruct Ss as [Ss|[Ss Ss']]; [congruence|].
    left. exists w. repeat split; assumption.
  - inversion Ne as [|? ? Hs Ne']; subst x l0.
    destruct (piece_loop q r buf log s Hs) as (f & Hf & Hp).
    assert (concat (buf ++ [s]) ++ (concat ss ++ t) = concat buf ++ concat (s :: ss) ++ t) as Ec.
    { rewrite concat_app. cbn. now rewrite app_nil_r, <- !app_assoc. }
    pose proof (loop_runs E c0 i j Hi Hj Hresp _ _ _ _ _ _ Hr (buf ++ [s]) (concat ss ++ t) q log f None Ec Mq Q R Fi N P Hf) as O.
    rewrite <- Hp in O.
    destruct O as [(q' & buf' & k & O1 & O2 & O3 & O4 & O5)|[(q' & r2 & buf' & w1 & w2 & O1 & O2 & O3 & O4 & O5 & O6 & O7 & O8 & O9 & O10 & O11)|
        (q' & pos & data & buf' & O1 & OB & OR & O2 & O4 & O5 & O6 & O7)]].
    + exfalso. destruct Cs as [(C1 & C2 & C3)|C]; [|rewrite (forever_needs _ C) in O2; discriminate].
      rewrite C2 in O5. symmetry in O5. apply app_eq_nil in O5. destruct O5 as [_ O5]. apply app_eq_nil in O5. now destruct O5.
    + erewrite run_task; [|eapply section_more; eassumption].
      destruct (IH Ne' q' r2 buf' log w2 rf left t) as (q2 & r3 & buf2 & w3 & I1 & I2 & I3 & I4 & I5 & I5' & I6); try assumption.
      * rewrite (k_method _ _ O4). exact Mq.
      * eapply quiet_kept; eassumption.
      * intros k Sk. eapply plain_kept; [exact O4|now apply P].
      * destruct ss as [|x ss]; [right|left; discriminate]. split; [exact O11|exact O3].
      * exists q2, r3, buf2, (w1 ++ w3). split; [exact I1|]. split; [eapply kept_trans; eassumption|].
        split; [congruence|]. split; [exact I4|]. split; [rewrite I5, O6, app_assoc; reflexivity|]. split; [exact I5'|].
        destruct I6 as [(w4 & J1 & J2)|(pos & data & J1 & J2 & J3 & J4 & J5)].
        -- left. exists w4. split; [rewrite O7, J1, app_assoc; reflexivity|exact J2].
        -- right. exists pos, data. repeat split; try assumption; try apply J1.
           rewrite J4, O7, <- !app_assoc. reflexivity.
    + erewrite run_task; [|eapply section_more; eassumption].
      set (r2 := with_length rf (r_chunked rf) (Some 0) pos RESP_DATA).
      assert (F' : forever r2) by (split; reflexivity).
      destruct (reads_forever l ss F2 Ne' q' r2 buf' log F' OB OR) as (q2 & pos' & buf2 & I1 & I2 & I3 & I4 & I5).
      exists q2, (with_length rf (r_chunked rf) (Some 0) pos' RESP_DATA), buf2, (w ++ data ++ concat ss).
      split; [exact I1|]. split; [eapply kept_trans; eassumption|]. split; [congruence|]. split; [exact OR|].
      split; [rewrite I5, O6, <- !app_assoc; reflexivity|].
      split; [split; [intros [Y|Y]; discriminate|discriminate]|].
      right. exists pos', (data ++ concat ss). repeat split; try assumption; try apply O2.
      rewrite O7, app_assoc. reflexivity.
Qed.

(** The server closes the connection. *)
Hypothesis Hlast : c_respq c0 = [].
Lemma hang_up a q r buf log : hangs_up a -> quiet q j -> r_request r = i ->
  match r_status r with Some s => ~ (100 <= s <= 199) /\ plain_status q s | None => True end ->
  exists q', run E (tasks [a]) (St q r buf log) =
    shut (set_responses [] None (St q' r buf (log ++ [EvFinished i (match r_status r with Some s => s | None => 0 end)]))) /\
    match r_status r with
    | Some s => told q q' s None (written q)
    | None => kept q q' /\ q_status q' = 0 /\ q_error q' = None /\ q_done q' = true
    end.
Proof.
  intros [B Ra] Q R S. destruct Hsent as (A1 & A2 & A3 & A4 & A5).
  set (q' := match r_status r with Some s => closed q s None | None => q_outcome q 0 None true end).
  set (k := match r_status r with Some s => s | None => 0 end).
  assert (X : ServerDisconnect E j None (St q r buf log) = (Ok tt, St q' r buf (log ++ [EvFinished i k]))).
  { unfold ServerDisconnect. erewrite bind_ok; [|apply getr_st; assumption]. rewrite R. unfold q', k.
    destruct (r_status r) as [s|] eqn:Es.
    - destruct S as [S1 S2]. apply ResponseFinished_final; assumption.
    - unfold ResponseFinished. erewrite bind_ok; [|apply getq_st; assumption]. rewrite (qu_response _ _ Q).
      erewrite bind_ok; [|reflexivity]. erewrite bind_ok; [|apply getr_st; assumption]. rewrite Es.
      erewrite bind_ok; [|apply putq_st; assumption].
      rewrite Finished_st; try assumption; [reflexivity|apply Q|]. cbn. split; [lia|]. right. lia. }
  assert (Y : Close E None (St q r buf log) = (Ok tt, shut (set_responses [] None (St q' r buf (log ++ [EvFinished i k]))))).
  { unfold Close. erewrite bind_ok; [|reflexivity]. cbn [c_request st]. rewrite A2. erewrite bind_ok; [|reflexivity].
    erewrite bind_ok; [|reflexivity]. cbn [c_respq st]. rewrite Hlast. cbn [length close_responses].
    erewrite bind_ok.
    2:{ erewrite bind_ok; [|reflexivity]. cbn [c_response st]. rewrite Hresp.
        erewrite bind_ok; [|exact X]. erewrite bind_ok; [|reflexivity]. cbn [c_respq st]. rewrite Hlast.
        erewrite bind_ok; [|reflexivity]. cbn [close_responses]. erewrite bind_ok; [|reflexivity].
        cbn [c_response set_responses]. reflexivity. }
    reflexivity. }
  exists q'. split.
  - erewrite run_task; [reflexivity|].
    unfold task. rewrite (iteration_section _ _ _ j) by (exact Hsent || exact Hresp).
    unfold response_section. erewrite bind_ok; [|reflexivity]. cbn [c_response st]. rewrite Hresp, B, Ra.
    unfold RecvResponseData. erewrite bind_ok; [|erewrite bind_ok; [|exact Y]; reflexivity].
    cbv beta iota. reflexivity.
  - unfold q'. destruct (r_status r) as [s|]; [apply closed_told|]. repeat split. cbn. destruct (q_resStream q); exact I.
Qed.
End One.
