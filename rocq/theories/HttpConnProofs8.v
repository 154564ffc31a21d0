(** Requests are sent, whatever the socket takes at a time. *)
From Coq Require Import Lia Zify.
From Verif Require Import Py Iso Dec XmlUtils XmlChars XmlCharsSpec Xsd XsdSpec XsdProofs Imscp ImscpProofs Shapes ShapesProofs2
  HttpCore HttpParams HttpSpec HttpProofs HttpProofs2 OdPage OdPageProofs HttpConn HttpConnSpec HttpConnProofs HttpConnProofs2
  HttpConnProofs3 HttpConnProofs6 HttpConnProofs7.
Open Scope Z_scope.

(** A connection that is sending request i *)
Definition sd (c : conn) (i : nat) (q : req) (send : list str) (b : bool) (wire : list str) : conn :=
  mkConn (upd (c_reqs c) i q) (c_resps c) (c_queue c) (Some i) (c_respq c) (c_response c) REQ_BODY_SENDING (c_waiting c)
    b send (c_recv c) (c_size c) wire (c_log c).
(** It is sent. *)
Definition sent_state (c : conn) (i : nat) (q : req) (wire : list str) : conn :=
  mkConn (upd (c_reqs c) i q) (c_resps c) (c_queue c) None (c_respq c) (c_response c) REQ_READY (c_waiting c)
    true [] (c_recv c) (c_size c) wire (c_log c).
Definition push (x : str) (wire : list str) : list str := match wire with w :: l => (w ++ x) :: l | [] => [x] end.
Lemma push_push x y w : push y (push x w) = push (x ++ y) w.
Proof. destruct w; cbn; [reflexivity|]. now rewrite <- app_assoc. Qed.
Lemma push_nil w l : push [] (w :: l) = w :: l. Proof. cbn. now rewrite app_nil_r. Qed.
Definition all_ne (l : list str) : Prop := Forall (fun s => s <> []) l.
Definition mu (send : list str) (t : str) : nat := (length (concat send) + 2 * length t + 1)%nat.

Section Send.
Variable E : env.
Notation chunk := (e_chunk E).

Lemma runs_status0 q t qf : body_runs chunk q t qf -> q_status qf = q_status q /\ q_try qf = q_try q.
Proof.
  induction 1 as [q q' H|q q' data t qf H _ _ IH].
  - revert H. unfold ReadRequestBody. destruct (q_sentall q); [now intros [= <-]|]. destruct (q_body q).
    + destruct (q_chunked q); now intros [= <-].
    + destruct (q_chunked q).
      * destruct (nonempty (firstn chunk (q_rest q))); [now intros [= <-]|]. now intros [= <-].
      * destruct (q_len q); [|discriminate]. destruct (_ =? 0); [now intros [= <-]|]. destruct (nonempty _); [now intros [= <-]|discriminate].
  - destruct IH as [-> ->]. revert H. unfold ReadRequestBody. destruct (q_sentall q); [now intros [= <-]|]. destruct (q_body q).
    + destruct (q_chunked q); now intros [= <-].
    + destruct (q_chunked q).
      * destruct (nonempty (firstn chunk (q_rest q))); [now intros [= <-]|]. now intros [= <-].
      * destruct (q_len q); [|discriminate]. destruct (_ =? 0); [now intros [= <-]|]. destruct (nonempty _); [now intros [= <-]|discriminate].
Qed.

Lemma getq_sd c i q send b w : (i < length (c_reqs c))%nat -> getq i (sd c i q send b w) = (Ok q, sd c i q send b w).
Proof. intros H. unfold getq, sd. cbn. now rewrite nth_upd. Qed.
Lemma upd_upd {A} (l : list A) : forall i x y, upd (upd l i x) i y = upd l i y.
Proof. induction l as [|a l IH]; intros [|i] x y; cbn; try reflexivity. now rewrite IH. Qed.
Lemma putq_sd c i q q' send b w : putq i q' (sd c i q send b w) = (Ok tt, sd c i q' send b w).
Proof. unfold putq, modify, set_reqs, sd. cbn. now rewrite upd_upd. Qed.
Lemma section_quiet a c : i_broken a = false -> i_read a = None -> response_section E a c = (Ok tt, c).
Proof. intros A B. unfold response_section, mbind, get. destruct (c_response c); [|reflexivity]. now rewrite A, B. Qed.
Lemma start_sd c i q send b w : start_next E (sd c i q send b w) = (Ok tt, sd c i q send b w).
Proof. unfold start_next, mbind, get, sd. cbn. now destruct (c_queue c). Qed.

Lemma connect a c i q send w : i_connect a = true -> iteration E a (sd c i q send false w) = iteration E a (sd c i q send true ([] :: w)).
Proof.
  intros A. unfold iteration. erewrite bind_ok; [|apply start_sd]. erewrite bind_ok; [|reflexivity]. symmetry.
  erewrite bind_ok; [|apply start_sd]. erewrite bind_ok; [|reflexivity]. symmetry.
  cbn [c_request c_response sd]. rewrite A. cbn [c_socket sd].
  erewrite bind_ok; [|reflexivity]. symmetry. erewrite bind_ok; [|reflexivity]. reflexivity.
Qed.
Lemma ok_task a c c' : iteration E a c = (Ok tt, c') -> task E a c = (Ok tt, c').
Proof. intros H. unfold task. now rewrite H. Qed.

(** One iteration *)
Lemma one_send a c i q send t qf w ws : (i < length (c_reqs c))%nat -> sends a -> all_ne send -> body_runs chunk q t qf ->
  q_status q = 0 ->
  (concat send ++ t = [] /\
   iteration E a (sd c i q send true (w :: ws)) = (Ok tt, sent_state c i (q_links qf (q_response qf) false (q_try qf)) (w :: ws))) \/
  exists q' send' t' x, iteration E a (sd c i q send true (w :: ws)) = (Ok tt, sd c i q' send' true ((w ++ x) :: ws)) /\
    concat send ++ t = x ++ concat send' ++ t' /\ all_ne send' /\ body_runs chunk q' t' qf /\ q_status q' = 0 /\
    (mu send' t' <= mu send t)%nat /\ (writable a = true -> (mu send' t' < mu send t)%nat).
Proof.
  intros Hi (A1 & A2 & A3 & A4) Ne B S.
  assert (It : iteration E a (sd c i q send true (w :: ws)) =
    (if match send with [] => false | _ => true end then
        _ <~ match i_write a with Some s => SendRequestData E s | None => ret tt end ;;
        c <~ get ;;
        match c_send c with
        | [] => ret tt
        | _ => response_section E a
        end
      else
        q <~ getq i ;;
        '(q, data) <~ lift (ReadRequestBody (e_chunk E) q) ;;
        _ <~ putq i q ;;
        if nonempty data then modify (fun c => set_send (c_send c ++ [data]) c)
        else
          _ <~ Disconnect E i ;;
          _ <~ modify (fun c => set_mode REQ_READY (c_waiting c) (set_request None c)) ;;
          response_section E a) (sd c i q send true (w :: ws))).
  { unfold iteration. erewrite bind_ok; [|apply start_sd]. erewrite bind_ok; [|reflexivity].
    cbn [c_request c_response sd]. erewrite bind_ok; [|reflexivity]. cbn [c_send c_mode sd]. destruct send; [|reflexivity].
    cbn [c_request sd the]. now erewrite bind_ok by reflexivity. }
  rewrite It. destruct send as [|s send].
  - erewrite bind_ok; [|now apply getq_sd]. inversion B as [q1 q' R|q1 q' data t1 qf1 R Nd B']; subst.
    + left. split; [reflexivity|]. rewrite R. erewrite bind_ok; [|reflexivity]. cbv beta iota. erewrite bind_ok; [|apply putq_sd].
      cbn [nonempty]. erewrite bind_ok.
      2:{ unfold Disconnect. erewrite bind_ok; [|now apply getq_sd]. erewrite bind_ok; [|apply putq_sd].
          destruct (runs_status0 _ _ _ B) as [St _]. rewrite St, S. reflexivity. }
      erewrite bind_ok; [|reflexivity]. rewrite section_quiet by assumption. reflexivity.
    + right. exists q', [data], t1, []. rewrite R. erewrite bind_ok; [|reflexivity]. cbv beta iota. erewrite bind_ok; [|apply putq_sd].
      destruct data as [|x data]; [congruence|]. cbn [nonempty]. split; [rewrite app_nil_r; reflexivity|].
      split; [cbn; now rewrite app_nil_r|]. split; [now repeat constructor|]. split; [exact B'|].
      destruct (runs_status0 _ _ _ B) as [St _]. destruct (runs_status0 _ _ _ B') as [St' _].
      split; [congruence|]. unfold mu. cbn [concat]. rewrite app_nil_r, app_length. cbn [length]. lia.
  - right. apply Forall_cons_iff in Ne. destruct Ne as [Ns Ne]. destruct A4 as [A4|(n & A4 & Hn)].
    + exists q, (s :: send), t, []. rewrite A4. erewrite bind_ok; [|reflexivity]. erewrite bind_ok; [|reflexivity].
      cbn [c_send sd]. rewrite section_quiet by assumption. rewrite app_nil_r. split; [reflexivity|]. split; [reflexivity|].
      split; [now constructor|]. split; [exact B|]. split; [exact S|]. split; [lia|]. unfold writable. rewrite A4. discriminate.
    + set (m := Nat.min n (length s)).
      assert (Hm : (0 < m <= length s)%nat). { unfold m. destruct s; [congruence|]. cbn [length]. lia. }
      set (send' := if Nat.ltb m (length s) then skipn m s :: send else send).
      assert (Sr : SendRequestData E (Sent n) (sd c i q (s :: send) true (w :: ws)) =
                   (Ok tt, sd c i q send' true ((w ++ firstn m s) :: ws))).
      { unfold SendRequestData. erewrite bind_ok; [|reflexivity]. cbn [c_send sd]. destruct s as [|z s]; [congruence|].
        fold m. cbv zeta. fold m. erewrite bind_ok; [|reflexivity]. unfold send'. destruct m as [|m'] eqn:Em; [lia|].
        destruct (Nat.ltb (Datatypes.S m') (length (z :: s))) eqn:L; reflexivity. }
      exists q, send', t, (firstn m s). rewrite A4. erewrite bind_ok; [|exact Sr]. erewrite bind_ok; [|reflexivity].
      assert (Cs : concat (s :: send) = firstn m s ++ concat send').
      { unfold send'. destruct (Nat.ltb m (length s)) eqn:L.
        - cbn [concat]. rewrite app_assoc. now rewrite firstn_skipn.
        - apply Nat.ltb_ge in L. rewrite firstn_all2 by lia. reflexivity. }
      split; [|split; [|split; [|split; [exact B|split; [exact S|]]]]].
      * cbn [c_send sd]. destruct send'; [reflexivity|]. now rewrite section_quiet.
      * rewrite Cs. now rewrite <- app_assoc.
      * unfold send'. destruct (Nat.ltb m (length s)) eqn:L; [|exact Ne]. constructor; [|exact Ne]. apply Nat.ltb_lt in L.
        intros X. apply (f_equal (@length Z)) in X. rewrite skipn_length in X. cbn in X. lia.
      * unfold mu. rewrite Cs, app_length, firstn_length. lia.
Qed.

(** All of them *)
Lemma many_sends l : Forall sends l -> forall c i q send t qf w ws, (i < length (c_reqs c))%nat -> all_ne send ->
  body_runs chunk q t qf -> q_status q = 0 ->
  (exists l1 l2, l = l1 ++ l2 /\ (times_writable l1 <= mu send t)%nat /\
    run E (tasks l1) (sd c i q send true (w :: ws)) =
    sent_state c i (q_links qf (q_response qf) false (q_try qf)) ((w ++ concat send ++ t) :: ws)) \/
  ((times_writable l < mu send t)%nat /\
   exists q' send' x rest, concat send ++ t = x ++ rest /\
     run E (tasks l) (sd c i q send true (w :: ws)) = sd c i q' send' true ((w ++ x) :: ws)).
Proof.
  induction 1 as [|a l Ha _ IH]; intros c i q send t qf w ws Hi Ne B S.
  - right. split; [unfold mu; cbn; lia|]. exists q, send, [], (concat send ++ t). rewrite app_nil_r. split; reflexivity.
  - destruct (one_send a c i q send t qf w ws Hi Ha Ne B S) as [[X R]|(q' & send' & t' & x & R & Eq & Ne' & B' & S' & M1 & M2)].
    + left. exists [a], l. split; [reflexivity|]. split.
      { unfold times_writable. cbn [filter]. unfold mu. destruct (writable a); cbn [length]; lia. }
      erewrite run_task; [|apply ok_task; exact R]. rewrite X, app_nil_r. reflexivity.
    + assert (T : forall l, (times_writable (a :: l) = (if writable a then 1 else 0) + times_writable l)%nat).
      { intros l'. unfold times_writable. cbn [filter]. now destruct (writable a). }
      destruct (IH c i q' send' t' qf (w ++ x) ws Hi Ne' B' S') as [(l1 & l2 & -> & M & R')|(M & q2 & send2 & x2 & rest & Eq2 & R')].
      * left. exists (a :: l1), l2. split; [reflexivity|]. split.
        { rewrite T. destruct (writable a); [specialize (M2 eq_refl)|]; lia. }
        erewrite run_task; [|apply ok_task; exact R]. rewrite R', Eq. rewrite <- app_assoc. reflexivity.
      * right. split. { rewrite T. destruct (writable a); [specialize (M2 eq_refl)|]; lia. }
        exists q2, send2, (x ++ x2), rest. split; [rewrite Eq, Eq2; now rewrite <- app_assoc|].
        erewrite run_task; [|apply ok_task; exact R]. rewrite R'. now rewrite <- app_assoc.
Qed.
End Send.

Section Start.
Variable E : env.
Notation chunk := (e_chunk E).
Definition link (c : conn) (j : nat) : conn :=
  match c_response c with
  | Some k => set_responses (c_respq c ++ [j]) (Some k) c
  | None => set_responses (c_respq c) (Some j) c
  end.
Definition started (c : conn) (i : nat) (rest : list nat) : conn :=
  link (set_queue rest (set_resps (fun l => l ++ [new_resp i]) c)) (length (c_resps c)).

Lemma StartRequest_ok c i q q1 head : nth_error (c_reqs c) i = Some q ->
  let q0 := q_links q (q_response q) true (q_try q) in
  ReadRequestHeader (e_url_cred E q0) q0 = Ok (q1, head) -> GetExpectContinue (q_headers q1) = false ->
  StartRequest E i c = (Ok tt,
    set_reqs (fun l => upd l i (q_links q1 (Some (length (c_resps c))) true (q_try q1)))
      (link (set_resps (fun l => l ++ [new_resp i]) (set_mode REQ_BODY_SENDING (c_waiting c)
        (set_send (c_send c ++ [head]) (set_request (Some i) c)))) (length (c_resps c)))).
Proof.
  intros N q0 R X. unfold StartRequest. rewrite (bind_ok _ _ c tt (set_request (Some i) c) eq_refl).
  rewrite (bind_ok _ _ (set_request (Some i) c) q (set_request (Some i) c)).
  2:{ unfold getq. change (c_reqs (set_request (Some i) c)) with (c_reqs c). now rewrite N. }
  cbv zeta. fold q0.
  set (cA := set_reqs (fun l => upd l i q0) (set_request (Some i) c)).
  rewrite (bind_ok _ _ (set_request (Some i) c) tt cA eq_refl).
  rewrite (bind_ok _ _ cA (q1, head) cA); [|unfold lift; now rewrite R]. cbv beta iota.
  set (cB := link (set_resps (fun l => l ++ [new_resp i]) (set_mode REQ_BODY_SENDING (c_waiting c) (set_send (c_send c ++ [head]) cA))) (length (c_resps c))).
  rewrite (bind_ok _ _ cA tt cB); [|unfold modify; rewrite X; reflexivity].
  rewrite (bind_ok get _ cB cB cB eq_refl). unfold putq, modify. f_equal.
  assert (L : (length (c_resps cB) - 1 = length (c_resps c))%nat).
  { unfold cB, link. destruct (c_response _); cbn [c_resps set_resps set_responses set_mode set_send cA set_reqs set_request];
      rewrite app_length; cbn [length]; lia. }
  rewrite L. unfold cB, cA, link. clearbody q0. clear. destruct c as [reqs resps queue request respq response mode wait sock send recv size wire log].
  destruct response; cbv [set_reqs set_resps set_responses set_mode set_send set_request c_reqs c_resps c_queue c_request c_respq c_response c_mode
    c_waiting c_socket c_send c_recv c_size c_wire c_log]; rewrite upd_upd; reflexivity.
Qed.
Lemma start_request c i rest q : chunk <> O -> by_request E -> ready c -> c_queue c = i :: rest -> new_request c i q ->
  c_response c = None \/ idempotent (q_method q) = true ->
  exists q1 head t qf, start_next E c = (Ok tt, sd (started c i rest) i q1 [head] (c_socket c) (c_wire c)) /\ head <> [] /\
    body_runs chunk q1 t qf /\ q_status q1 = 0 /\ (request_text (e_url_cred E q) q (head ++ t) /\ message E q (head ++ t)) /\
    q_response qf = Some (length (c_resps c)) /\ q_try qf = false /\ q_method qf = q_method q /\ q_auto qf = q_auto q /\
    q_resBuffer qf = [] /\ (q_resStream qf = None \/ q_resStream qf = Some []) /\ q_resStream qf = q_resStream q.
Proof.
  intros Hc Hb (R1 & R2 & R3 & R4 & R5 & R6) Hq (N & F & Sd) Ho.
  destruct (request_written chunk (e_url_cred E q) q (length (c_resps c)) Hc F Sd) as (h & ch & l & head & t & pos & rest' & R & Nh & X & B & T).
  exists (q_links (q_transfer (q_links q (q_response q) true (q_try q)) h ch l) (Some (length (c_resps c))) true (q_try q)), head, t.
  eexists. 
  assert (Ms : message E q (head ++ t)).
  { exists (length (c_resps c)), h, ch, l, head, t. eexists. exact (conj R (conj B eq_refl)). }
  refine (conj _ (conj Nh (conj B (conj _ (conj (conj T Ms) (conj eq_refl (conj _ (conj eq_refl (conj eq_refl (conj _ (conj _ eq_refl))))))))))).
  - unfold start_next. erewrite bind_ok; [|reflexivity]. rewrite Hq, R2. erewrite bind_ok; [|unfold getq; now rewrite N].
    assert ((match c_response c with None => true | Some _ => false end || idempotent (q_method q)) = true) as ->.
    { destruct Ho as [-> | ->]; [reflexivity|now rewrite orb_true_r]. }
    erewrite bind_ok; [|reflexivity].
    erewrite StartRequest_ok; [|exact N|rewrite Hb; exact R|exact X].
    unfold started, link. cbn [q_links q_try q_transfer]. set (q1 := q_links _ _ true (q_try q)). clearbody q1. clear - R3.
    destruct c as [reqs resps queue request respq response mode wait sock send recv size wire log]. cbn [c_send] in R3. subst send.
    destruct response; reflexivity.
  - apply F.
  - apply F.
  - apply F.
  - apply F.
Qed.
End Start.

(** What was on the wire, with a new connection if there is none *)
Definition W (c : conn) : list str := if c_socket c then c_wire c else [] :: c_wire c.
Lemma times_app a b : times_writable (a ++ b) = (times_writable a + times_writable b)%nat.
Proof. unfold times_writable. now rewrite filter_app, app_length. Qed.

Section Requests.
Variable E : env.
Notation chunk := (e_chunk E).
Hypothesis Hchunk : chunk <> O.
Hypothesis Hcred : by_request E.

(** What one request leaves *)
Record after (c : conn) (i : nat) (rest : list nat) (q : req) (text : str) (c1 : conn) : Prop := mkAfter {
  a_ready : ready c1;
  a_queue : c_queue c1 = rest;
  a_wire : exists w ws, W c = w :: ws /\ c_wire c1 = (w ++ text) :: ws;
  a_socket : c_socket c1 = true;
  a_resps : c_resps c1 = c_resps c ++ [new_resp i];
  a_pending : c_response c1 <> None /\ (linked c -> pending c1 = pending c ++ [length (c_resps c)]);
  a_others : forall k, k <> i -> nth_error (c_reqs c1) k = nth_error (c_reqs c) k;
  a_log : c_log c1 = c_log c;
  a_req : exists q', awaited c1 i (length (c_resps c)) q' /\ q_method q' = q_method q /\ q_auto q' = q_auto q /\
    q_resStream q' = q_resStream q }.
Lemma one_request c i rest q : ready c -> c_queue c = i :: rest -> new_request c i q ->
  c_response c = None \/ idempotent (q_method q) = true ->
  exists text, text <> [] /\ (request_text (e_url_cred E q) q text /\ message E q text) /\
  forall l, Forall sends l ->
    (exists l1 l2 c1, l = l1 ++ l2 /\ (times_writable l1 <= 2 * length text + 2)%nat /\ run E (tasks l1) c = c1 /\ after c i rest q text c1) \/
    ((times_writable l < 2 * length text + 2)%nat /\
     (l = [] \/ exists x more w ws, text = x ++ more /\ W c = w :: ws /\ c_wire (run E (tasks l) c) = (w ++ x) :: ws)).
Proof.
  intros Rd Hq New Ho.
  destruct (start_request E c i rest q Hchunk Hcred Rd Hq New Ho) as (q1 & head & t & qf & St & Nh & B & S & T & Q1 & Q2 & Q3 & Q4 & Q5 & Q6 & Q7).
  exists (head ++ t). split; [now destruct head|]. split; [exact T|]. intros l Hl.
  assert (Mu : (mu [head] t <= 2 * length (head ++ t) + 1)%nat).
  { unfold mu. cbn [concat]. rewrite app_nil_r, app_length. lia. }
  destruct l as [|a l].
  { right. split; [cbn; lia|]. now left. }
  assert (Hi : (i < length (c_reqs (started c i rest)))%nat).
  { destruct New as (N & _). apply nth_lt in N. unfold started, link. destruct c as [? ? ? ? ? []]; exact N. }
  assert (Ww : exists w ws, W c = w :: ws).
  { unfold W. destruct Rd as (_ & _ & _ & _ & _ & R6). destruct (c_socket c); [|eauto]. specialize (R6 eq_refl).
    destruct (c_wire c); [congruence|eauto]. }
  destruct Ww as (w & ws & Ew).
  assert (Fst : forall l0, run E (tasks (a :: l0)) c = run E (tasks (a :: l0)) (sd (started c i rest) i q1 [head] true (w :: ws))).
  { intros l0. unfold tasks, run. cbn [map fold_left]. f_equal. unfold step, task. 
    assert (iteration E a c = iteration E a (sd (started c i rest) i q1 [head] true (w :: ws))) as ->; [|reflexivity].
    transitivity (iteration E a (sd (started c i rest) i q1 [head] (c_socket c) (c_wire c))).
    - unfold iteration. rewrite (bind_ok _ _ _ _ _ St). rewrite (bind_ok _ _ _ _ _ (start_sd E _ _ _ _ _ _)). reflexivity.
    - unfold W in Ew. destruct (c_socket c); [now rewrite Ew|]. apply Forall_inv in Hl. rewrite connect by apply Hl. now rewrite Ew. }
  assert (Ne : all_ne [head]) by (constructor; [exact Nh|constructor]).
  assert (Aft : after c i rest q (head ++ t) (sent_state (started c i rest) i (q_links qf (q_response qf) false (q_try qf)) ((w ++ concat [head] ++ t) :: ws))).
  { cbn [concat]. rewrite app_nil_r. destruct Rd as (R1 & R2 & R3 & R4 & R5 & R6). destruct New as (N & _).
    assert (Li : (i < length (c_reqs c))%nat) by now apply nth_lt in N.
    constructor; try reflexivity.
    - unfold ready. cbn. unfold started, link. destruct c as [? ? ? ? ? []]; cbn in *; repeat split; try assumption; discriminate.
    - unfold started, link. destruct c as [? ? ? ? ? []]; reflexivity.
    - exists w, ws. split; [exact Ew|reflexivity].
    - unfold started, link. destruct c as [? ? ? ? ? []]; reflexivity.
    - unfold pending, started, link, linked. destruct c as [? ? ? ? ? []]; cbn; (split; [discriminate|]); [reflexivity|].
      intros H. now rewrite (H eq_refl).
    - intros k Nk. unfold started, link. destruct c as [? ? ? ? ? []]; cbn; apply nth_upd_other; congruence.
    - unfold started, link. destruct c as [? ? ? ? ? []]; reflexivity.
    - exists (q_links qf (q_response qf) false (q_try qf)). split; [|now repeat split]. constructor.
      + unfold started, link. destruct c as [? ? ? ? ? []]; cbn; rewrite nth_error_app2, Nat.sub_diag by lia; reflexivity.
      + unfold started, link. destruct c as [? ? ? ? ? []]; cbn; apply nth_upd; exact Li.
      + now repeat split.
      + now split. }
  destruct (many_sends E (a :: l) Hl (started c i rest) i q1 [head] t qf w ws Hi Ne B S) as [(l1 & l2 & El & M & R)|(M & q2 & send2 & x & more & Eq & R)].
  - left. exists l1, l2, (sent_state (started c i rest) i (q_links qf (q_response qf) false (q_try qf)) ((w ++ concat [head] ++ t) :: ws)).
    split; [exact El|]. split; [lia|]. split; [|exact Aft]. destruct l1 as [|b l1].
    { exfalso. cbn in R. apply (f_equal c_request) in R. discriminate. }
    injection El as <- ->. now rewrite Fst.
  - right. split; [lia|]. right. exists x, more, w, ws. cbn [concat] in Eq. rewrite app_nil_r in Eq. split; [exact Eq|]. split; [exact Ew|].
    rewrite Fst, R. reflexivity.
Qed.

(** Nothing happens while nothing is received. *)
Lemma idle_sends c l : Forall sends l -> ready c -> c_queue c = [] -> c_socket c = true -> c_response c <> None -> run E (tasks l) c = c.
Proof.
  intros F (R1 & R2 & R3 & R4 & R5 & R6) Q S P. induction F as [|a l (A1 & A2 & A3 & A4) _ IH]; [reflexivity|].
  erewrite run_task; [exact IH|]. apply ok_task. unfold iteration. rewrite (bind_ok _ _ c tt c).
  2:{ unfold start_next. rewrite (bind_ok get _ c c c eq_refl). now rewrite Q. }
  rewrite (bind_ok get _ c c c eq_refl). rewrite R1. destruct (c_response c) as [j|] eqn:X; [|congruence].
  rewrite S. rewrite (bind_ok _ _ c tt c eq_refl). rewrite R3, R2. now apply section_quiet.
Qed.

Definition may_start (c : conn) (is : list nat) : Prop :=
  forall k i q, nth_error is k = Some i -> nth_error (c_reqs c) i = Some q ->
    idempotent (q_method q) = true \/ (k = O /\ c_response c = None).
Record all_sent (c : conn) (is : list nat) (ms : list str) (c' : conn) : Prop := mkAllSent {
  as_ready : ready c';
  as_queue : c_queue c' = [];
  as_socket : c_socket c' = true;
  as_wire : exists w ws, W c = w :: ws /\ c_wire c' = (w ++ concat ms) :: ws;
  as_resps : c_resps c' = c_resps c ++ map new_resp is;
  as_pending : c_response c' <> None /\ pending c' = pending c ++ seq (length (c_resps c)) (length is);
  as_others : forall k, ~ In k is -> nth_error (c_reqs c') k = nth_error (c_reqs c) k;
  as_log : c_log c' = c_log c;
  as_reqs : forall k i, nth_error is k = Some i -> exists q q', nth_error (c_reqs c) i = Some q /\
    awaited c' i (length (c_resps c) + k) q' /\ q_method q' = q_method q /\ q_auto q' = q_auto q /\ q_resStream q' = q_resStream q }.
Lemma ready_W c : ready c -> exists w ws, W c = w :: ws.
Proof.
  intros (_ & _ & _ & _ & _ & R6). unfold W. destruct (c_socket c); [|eauto]. specialize (R6 eq_refl).
  destruct (c_wire c); [congruence|eauto].
Qed.
Lemma pending_linked c : c_response c <> None -> linked c.
Proof. now intros H X. Qed.
Theorem requests_sent is : forall c, ready c -> linked c -> c_queue c = is -> NoDup is ->
  (forall i, In i is -> exists q, new_request c i q) -> may_start c is ->
  is <> [] \/ (c_socket c = true /\ c_response c <> None) ->
  exists ms, Forall2 (fun i m => exists q, nth_error (c_reqs c) i = Some q /\ request_text (e_url_cred E q) q m /\ message E q m) is ms /\
  forall l, Forall sends l ->
    ((enough ms <= times_writable l)%nat -> all_sent c is ms (run E (tasks l) c)) /\
    (l <> [] -> exists x more w ws, concat ms = x ++ more /\ W c = w :: ws /\ c_wire (run E (tasks l) c) = (w ++ x) :: ws).
Proof.
  induction is as [|i is IH]; intros c Rd Lk Hq Nd New May Ne.
  - exists []. split; [constructor|]. intros l Hl. destruct Ne as [Ne|[S P]]; [congruence|].
    destruct (ready_W c Rd) as (w & ws & Ew). assert (Hw : c_wire c = w :: ws) by (unfold W in Ew; now rewrite S in Ew).
    rewrite idle_sends by assumption. split.
    + intros _. constructor; try assumption; try reflexivity.
      * exists w, ws. cbn. now rewrite app_nil_r.
      * cbn. now rewrite app_nil_r.
      * split; [exact P|]. cbn. now rewrite app_nil_r.
      * intros [|k] j; discriminate.
    + intros _. exists [], [], w, ws. split; [reflexivity|]. split; [exact Ew|]. now rewrite app_nil_r.
  - apply NoDup_cons_iff in Nd. destruct Nd as [Ni Nd]. destruct (New i (or_introl eq_refl)) as (q & Hn).
    assert (Ho : c_response c = None \/ idempotent (q_method q) = true).
    { destruct (May O i q eq_refl (proj1 Hn)) as [X|[_ X]]; [now right|now left]. }
    destruct (one_request c i is q Rd Hq Hn Ho) as (m & Nm & [Tm Mm] & Run).
    assert (Mss : exists ms, Forall2 (fun i m => exists q, nth_error (c_reqs c) i = Some q /\ request_text (e_url_cred E q) q m /\ message E q m) is ms).
    { assert (New' : forall j, In j is -> exists q, new_request c j q) by (intros j Hj; apply New; now right).
      clear - New' Hchunk. induction is as [|j is IH]; [exists []; constructor|].
      destruct IH as [ms Hms]; [intros k Hk; apply New'; now right|]. destruct (New' j (or_introl eq_refl)) as (qj & N & F & S).
      destruct (request_written chunk (e_url_cred E qj) qj O Hchunk F S) as (h & ch & l & head & t & pos & rest' & R & Nh & X & B & T).
      exists ((head ++ t) :: ms). constructor; [|exact Hms]. exists qj. split; [exact N|]. split; [exact T|].
      exists O, h, ch, l, head, t. eexists. exact (conj R (conj B eq_refl)). }
    destruct Mss as (ms & Hms).
    exists (m :: ms). split; [constructor; [exists q; exact (conj (proj1 Hn) (conj Tm Mm))|exact Hms]|].
    intros l Hl.
    assert (En : enough (m :: ms) = (2 * length m + 2 + enough ms)%nat) by reflexivity.
    destruct (Run l Hl) as [(l1 & l2 & c1 & -> & M & R & A)|(M & P)].
    + apply Forall_app in Hl. destruct Hl as [Hl1 Hl2]. destruct A as [A1 A2 (w & ws & Aw & Aw') A4 A5 [A6 A6'] A7 A8 (q' & A9 & A10 & A11 & A12)].
      assert (Keep : forall j, In j is -> nth_error (c_reqs c1) j = nth_error (c_reqs c) j).
      { intros j Hj. apply A7. intros ->. contradiction. }
      destruct (IH c1) as (ms' & Hms' & Run'); try assumption.
      * now apply pending_linked.
      * intros j Hj. destruct (New j (or_intror Hj)) as (qj & N & FS). exists qj. split; [|exact FS]. now rewrite Keep.
      * intros k j qj Hk Hj. left. rewrite Keep in Hj by (eapply nth_error_In; exact Hk).
        destruct (May (S k) j qj Hk Hj) as [X|[X _]]; [exact X|discriminate].
      * right. now split.
      * assert (ms' = ms) as ->.
        { clear - Hms Hms' Keep. revert ms Hms. induction Hms' as [|j m' is ms' (qj & N & _ & Mj) _ IHm]; intros ms Hms.
          - now inversion Hms.
          - inversion Hms as [|? m2 ? ms2 (q2 & N2 & _ & M2) Hms2]; subst. rewrite Keep in N by now left.
            assert (q2 = qj) by congruence. subst q2. f_equal; [eapply message_det; eassumption|].
            apply IHm; [|exact Hms2]. intros k Hk. apply Keep. now right. }
        assert (Wc1 : W c1 = (w ++ m) :: ws) by (unfold W; rewrite A4; exact Aw').
        destruct (Run' l2 Hl2) as [Ra Rp]. rewrite run_app, R. split.
        -- intros Hen. rewrite times_app, En in Hen. destruct (Ra ltac:(lia)) as [S1 S2 S3 (w' & ws' & S4 & S4') S5 [S6 S6'] S7 S8 S9].
           rewrite Wc1 in S4. injection S4 as <- <-. constructor; try assumption.
           ++ exists w, ws. split; [exact Aw|]. rewrite S4'. cbn [concat]. now rewrite app_assoc.
           ++ rewrite S5, A5. cbn [map]. now rewrite <- app_assoc.
           ++ split; [exact S6|]. rewrite S6', (A6' Lk), A5, app_length. cbn [length seq]. rewrite Nat.add_1_r, <- app_assoc. reflexivity.
           ++ intros k Hk. rewrite S7 by (intros X; apply Hk; now right). apply A7. intros ->. apply Hk. now left.
           ++ congruence.
           ++ intros [|k] j Hk.
              ** injection Hk as <-. exists q, q'. split; [apply Hn|]. split; [|now repeat split].
                 rewrite Nat.add_0_r. destruct A9 as [B1 B2 B3 B4]. constructor; try assumption.
                 --- rewrite S5. rewrite nth_error_app1; [exact B1|]. apply nth_lt in B1. exact B1.
                 --- rewrite S7 by exact Ni. exact B2.
              ** destruct (S9 k j Hk) as (qj & qj' & N & Aj & Rest). exists qj, qj'.
                 rewrite Keep in N by (eapply nth_error_In; exact Hk). split; [exact N|]. split; [|exact Rest].
                 rewrite A5, app_length in Aj. cbn [length] in Aj. replace (length (c_resps c) + S k)%nat with (length (c_resps c) + 1 + k)%nat by lia. exact Aj.
        -- intros _. destruct l2 as [|b l2].
           ++ exists m, (concat ms), w, ws. split; [reflexivity|]. split; [exact Aw|exact Aw'].
           ++ destruct (Rp ltac:(discriminate)) as (x & more & w' & ws' & Ex & W' & Hw). rewrite Wc1 in W'. injection W' as <- <-.
              exists (m ++ x), more, w, ws. split; [cbn [concat]; rewrite Ex; now rewrite app_assoc|]. split; [exact Aw|]. rewrite Hw. now rewrite app_assoc.
    + split.
      * intros Hen. rewrite En in Hen. lia.
      * intros Nl. destruct P as [P|(x & more & w & ws & Ex & W' & Hw)]; [contradiction|].
        exists x, (more ++ concat ms), w, ws. split; [cbn [concat]; rewrite Ex; now rewrite app_assoc|]. split; assumption.
Qed.
End Requests.
