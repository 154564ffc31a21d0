(** Connections that break. *)
From Coq Require Import Lia Zify.
From Verif Require Import Py Iso Dec XmlUtils Xsd Imscp Shapes HttpCore HttpParams HttpSpec OdPage HttpConn HttpConnSpec HttpConnProofs
  HttpConnProofs2 HttpConnProofs3 HttpConnProofs6 HttpConnProofs7 HttpConnProofs8.
Open Scope Z_scope.

Lemma Forall2_len {A B} (P : A -> B -> Prop) l l' : Forall2 P l l' -> length l = length l'.
Proof. induction 1; cbn; congruence. Qed.
Lemma runs_response chunk q t qf : body_runs chunk q t qf -> q_response qf = q_response q.
Proof.
  assert (X : forall q q' data, ReadRequestBody chunk q = Ok (q', data) -> q_response q' = q_response q).
  { clear. intros q q' data H. unfold ReadRequestBody in H.
    repeat match type of H with context [match ?x with _ => _ end] => destruct x end; try discriminate; now injection H as <- _. }
  induction 1 as [q q' H|q q' data t qf H _ _ IH]; [|rewrite IH]; eapply X; exact H.
Qed.
Section Break.
Variable E : env.

Definition failed (q : req) (err : option cause) : req := q_outcome q 0 err true.
Definition fail_one (c : conn) (i : nat) (q : req) (err : option cause) : conn :=
  add_event (EvFinished i 0) (set_reqs (fun l => upd l i (failed q err)) c).
Lemma disconnect_one c i j err : unanswered c i j ->
  exists q, nth_error (c_reqs c) i = Some q /\ ServerDisconnect E j err c = (Ok tt, fail_one c i q err).
Proof.
  intros (q & r & Hq & Hj & Ht & Hs & Hr & Rs & Ri). exists q. split; [exact Hq|]. pose proof (nth_lt _ _ _ Hq) as Li.
  unfold ServerDisconnect. assert (G : getr j c = (Ok r, c)) by (unfold getr; now rewrite Hr).
  rewrite (bind_ok _ _ _ _ _ G). rewrite Ri. unfold ResponseFinished.
  assert (Q : getq i c = (Ok q, c)) by (unfold getq; now rewrite Hq).
  rewrite (bind_ok _ _ _ _ _ Q), Hj, (bind_ok _ _ c j c eq_refl), (bind_ok _ _ _ _ _ G), Rs.
  set (q1 := q_outcome q 0 err (q_done q)). set (c1 := set_reqs (fun l => upd l i q1) c).
  rewrite (bind_ok (putq i q1) _ c tt c1 eq_refl). unfold Finished.
  assert (Q1 : getq i c1 = (Ok q1, c1)) by (unfold getq, c1; cbn; now rewrite nth_upd).
  rewrite (bind_ok _ _ _ _ _ Q1).
  set (c2 := set_reqs (fun l => upd l i (q_outcome q1 (q_status q1) (q_error q1) true)) c1).
  rewrite (bind_ok (putq i _) _ c1 tt c2 eq_refl).
  rewrite (bind_ok (modify _) _ c2 tt (add_event (EvFinished i (q_status q1)) c2) eq_refl).
  assert (T : q_try q1 = false) by exact Ht. rewrite T.
  rewrite (bind_ok (ret tt) _ _ tt _ eq_refl). assert (S1 : q_status q1 = 0) by reflexivity. rewrite S1.
  change (300 <=? 0) with false. rewrite andb_false_r. cbn [andb]. change (0 =? 401) with false. cbv iota.
  unfold fail_one, c2, c1, failed, set_reqs, add_event, ret. cbn. now rewrite upd_upd.
Qed.
Lemma fail_one_others c i q err k : k <> i -> nth_error (c_reqs (fail_one c i q err)) k = nth_error (c_reqs c) k.
Proof. intros N. cbn. apply nth_upd_other. congruence. Qed.

Record closed_by (c : conn) (is : list nat) (err : option cause) (c' : conn) : Prop := mkClosedBy {
  cb_done : forall i, In i is -> exists q, nth_error (c_reqs c') i = Some q /\ q_status q = 0 /\ q_error q = err /\ q_done q = true;
  cb_kept : forall k, ~ In k is -> nth_error (c_reqs c') k = nth_error (c_reqs c) k;
  cb_log : c_log c' = c_log c ++ map (fun i => EvFinished i 0) is;
  cb_pending : c_response c' = None /\ c_respq c' = [];
  cb_request : c_request c' = c_request c;
  cb_queue : c_queue c' = c_queue c;
  cb_wire : c_wire c' = c_wire c }.

Lemma close_all err : forall is c f, Forall2 (unanswered c) is (pending c) -> linked c -> NoDup is -> (length is <= f)%nat ->
  exists c', close_responses E f err c = (Ok tt, c') /\ closed_by c is err c'.
Proof.
  induction is as [|i is IH]; intros c f F L N Lf.
  - inversion F as [Hp|]. exists c. assert (R : c_response c = None) by (unfold pending in *; destruct (c_response c); congruence).
    split.
    + destruct f; cbn [close_responses]; rewrite (bind_ok get _ c c c eq_refl); now rewrite R.
    + constructor; try reflexivity; [easy|cbn; now rewrite app_nil_r|]. split; [exact R|now apply L].
  - inversion F as [|? j ? js U F' Ei Hp]. subst. destruct f as [|f]; [cbn in Lf; lia|].
    assert (R : c_response c = Some j /\ c_respq c = js).
    { unfold pending in Hp. destruct (c_response c); [|discriminate]. now injection Hp as -> ->. }
    destruct R as [R Rq]. destruct (disconnect_one c i j err U) as (q & Hq & D).
    pose proof (nth_lt _ _ _ Hq) as Li.
    set (c1 := fail_one c i q err) in *.
    set (c2 := match js with k :: l => set_responses l (Some k) c1 | [] => set_responses [] None c1 end).
    inversion N as [|? ? Ni N']; subst x l.
    assert (P2 : pending c2 = js) by (unfold c2; destruct js; reflexivity).
    destruct (IH c2 f) as (c' & Hc & [B1 B2 B3 B4 B5 B6 B7]).
    + rewrite P2. assert (X : forall i', In i' is -> nth_error (c_reqs c2) i' = nth_error (c_reqs c) i').
      { intros i' H. unfold c2. destruct js; cbn [c_reqs set_responses]; apply fail_one_others; intros ->; contradiction. }
      assert (Rs : c_resps c2 = c_resps c) by (unfold c2; destruct js; reflexivity). clear - F' X Rs. clearbody c2.
      induction F' as [|i' j' is' js' U F' IH]; [constructor|]. constructor; [|apply IH; intros; apply X; now right].
      destruct U as (q' & r & U1 & U2). exists q', r. rewrite X by now left. rewrite Rs. now split.
    + intros H. unfold c2 in *. destruct js; [reflexivity|discriminate].
    + exact N'.
    + cbn in Lf. lia.
    + exists c'. split.
      * cbn [close_responses]. rewrite (bind_ok get _ c c c eq_refl), R, (bind_ok _ _ _ _ _ D).
        rewrite (bind_ok get _ c1 c1 c1 eq_refl).
        replace (c_respq c1) with js by (symmetry; exact Rq).
        erewrite bind_ok; [exact Hc|]. unfold c2, modify. destruct js; reflexivity.
      * assert (E2 : c_log c2 = c_log c ++ [EvFinished i 0] /\ c_request c2 = c_request c /\ c_queue c2 = c_queue c /\ c_wire c2 = c_wire c).
        { unfold c2, c1. destruct js; repeat split. }
        destruct E2 as (L2 & Q2 & U2 & W2).
        constructor; try congruence; try assumption.
        -- intros i' [<-|Hi]; [|now apply B1]. exists (failed q err). split; [|repeat split].
           rewrite B2 by exact Ni. unfold c2, c1. destruct js; cbn; now apply nth_upd.
        -- intros k Nk. rewrite B2 by (intros X; apply Nk; now right).
           transitivity (nth_error (c_reqs c1) k); [unfold c2; destruct js; reflexivity|].
           apply fail_one_others. intros ->. apply Nk. now left.
        -- rewrite B3, L2, <- app_assoc. reflexivity.
Qed.

(** The connection is closed while a request is being sent, or when all are sent. *)
Lemma Close_gives_up err c is : Forall2 (unanswered c) is (pending c) -> linked c -> NoDup is ->
  match c_request c with Some i => In i is | None => True end ->
  exists c', Close E err c = (Ok tt, c') /\ given_up c is err c' /\ c_queue c' = c_queue c /\ c_wire c' = c_wire c.
Proof.
  intros F L N R. unfold Close. rewrite (bind_ok get _ c c c eq_refl).
  assert (X : exists c1, match c_request c with
       | Some i => _ <~ Disconnect E i ;; modify (fun c => set_mode CLOSE_WAIT (c_waiting c) (set_request None c))
       | None => ret tt end c = (Ok tt, c1) /\ Forall2 (unanswered c1) is (pending c1) /\ linked c1 /\ c_request c1 = None /\
       (forall k, ~ In k is -> nth_error (c_reqs c1) k = nth_error (c_reqs c) k) /\ c_log c1 = c_log c /\
       c_queue c1 = c_queue c /\ c_wire c1 = c_wire c /\ c_respq c1 = c_respq c /\ pending c1 = pending c).
  { destruct (c_request c) as [i|] eqn:Er.
    - assert (U : exists j, unanswered c i j).
      { apply In_nth_error in R. destruct R as (k & Hk). clear - F Hk. revert k Hk. induction F as [|i' j' is js U F IH]; intros [|k] Hk; try discriminate.
        - injection Hk as ->. eauto.
        - eapply IH. exact Hk. }
      destruct U as (j & q & r & Hq & Hj & Ht & Hs & Hr & Rs & Ri). pose proof (nth_lt _ _ _ Hq) as Li.
      set (q1 := q_links q (q_response q) false (q_try q)).
      eexists. split.
      + assert (D : Disconnect E i c = (Ok tt, set_reqs (fun l => upd l i q1) c)).
        { unfold Disconnect. assert (Q : getq i c = (Ok q, c)) by (unfold getq; now rewrite Hq).
          rewrite (bind_ok _ _ _ _ _ Q). rewrite (bind_ok (putq i _) _ c tt (set_reqs (fun l => upd l i q1) c) eq_refl). rewrite Hs. reflexivity. }
        rewrite (bind_ok _ _ _ _ _ D). reflexivity.
      + split.
        * change (pending (set_mode _ _ _)) with (pending c). clear - F Hq Li. induction F as [|i' j' is js U F IH]; constructor; [|exact IH].
          destruct U as (q' & r & U1 & U2 & U3 & U4 & U5 & U6). destruct (Nat.eq_dec i' i) as [->|Ni].
          -- assert (q' = q) by congruence. subst q'. exists q1, r. split; [cbn; now apply nth_upd|]. now repeat split.
          -- exists q', r. split; [cbn; rewrite nth_upd_other by congruence; exact U1|]. now repeat split.
        * split; [exact L|]. split; [reflexivity|]. split; [|repeat split].
          intros k Nk. cbn. apply nth_upd_other. intros ->. contradiction.
    - exists c. split; [reflexivity|]. repeat split; assumption || reflexivity. }
  destruct X as (c1 & X & F1 & L1 & R1 & K1 & G1 & Q1 & W1 & Rq1 & P1). rewrite (bind_ok _ _ _ _ _ X), (bind_ok get _ c1 c1 c1 eq_refl).
  destruct (close_all err is c1 (S (length (c_respq c1))) F1 L1 N) as (c2 & Hc & [B1 B2 B3 B4 B5 B6 B7]).
  { apply Forall2_len in F1. rewrite F1. unfold pending. destruct (c_response c1); cbn; lia. }
  rewrite (bind_ok _ _ _ _ _ Hc). eexists. split; [reflexivity|]. destruct B4 as [B4 B4'].
  split; [|split; [cbn; congruence|cbn; congruence]].
  split; [exact B1|]. split; [|split; [|split; [|split; [|split; [|split; [|split; [|split]]]]]]]; try reflexivity.
  - intros k Nk. cbn. rewrite B2, K1; [reflexivity|exact Nk|exact Nk].
  - cbn. congruence.
  - cbn. congruence.
  - exact B4.
  - exact B4'.
Qed.

(** *** Iterations *)
Lemma tail c c' is err : given_up c is err c' ->
  (if true then
     c <~ get ;;
     closing <~ match c_response c with
                | None => ret false
                | Some j =>
                    r <~ getr j ;;
                    tokens <~ lift (GetConnection (r_headers r)) ;;
                    ret (existsb (str_eqb (lit "close")) tokens || before_11 (r_version r))
                end ;;
     closing <~ match c_respq c, c_response c with
                | k :: l, _ => _ <~ modify (set_responses l (Some k)) ;; ret closing
                | [], Some _ =>
                    _ <~ modify (set_responses [] None) ;;
                    ret (closing || match c_mode c with CLOSE_WAIT => true | _ => false end)
                | [], None => ret closing
                end ;;
     if closing then Close E None else ret tt
   else ret tt) c' = (Ok tt, c').
Proof.
  intros (_ & _ & _ & _ & _ & G1 & G2 & _). cbv iota. rewrite (bind_ok get _ c' c' c' eq_refl), G1, (bind_ok (ret false) _ c' false c' eq_refl), G2.
  reflexivity.
Qed.
Lemma break_reading a c is err : c_queue c = [] -> c_request c = None -> c_mode c = REQ_READY -> c_socket c = true -> c_send c = [] ->
  Forall2 (unanswered c) is (pending c) -> pending c <> [] -> NoDup is ->
  (i_broken a = true /\ err = Some CIndicated) \/ ((fails_reading a \/ hangs_up a) /\ err = None) ->
  exists c', task E a c = (Ok tt, c') /\ given_up c is err c' /\ c_queue c' = c_queue c /\ c_wire c' = c_wire c.
Proof.
  intros Q R M S B F P N H. assert (exists j, c_response c = Some j) as (j & Rj).
  { unfold pending in P. destruct (c_response c); [eauto|congruence]. }
  destruct (Close_gives_up err c is F) as (c' & C & G & Q' & W').
  - intros X. congruence.
  - exact N.
  - now rewrite R.
  - exists c'. split; [|now repeat split; try apply G]. apply ok_task. rewrite (iteration_section E a c j) by (repeat split; assumption || assumption).
    unfold response_section. rewrite (bind_ok get _ c c c eq_refl), Rj.
    destruct H as [[H ->]|[[[H1 H2]|[H1 H2]] ->]].
    + now rewrite H.
    + rewrite H1, H2. unfold RecvResponseData. erewrite bind_ok; [|rewrite (bind_ok _ _ _ _ _ C); reflexivity].
      now apply (tail c c' is None).
    + rewrite H1, H2. unfold RecvResponseData. erewrite bind_ok; [|rewrite (bind_ok _ _ _ _ _ C); reflexivity].
      now apply (tail c c' is None).
Qed.
Lemma break_sending a c i is x s l : c_request c = Some i -> c_mode c <> REQ_READY -> c_socket c = true -> c_send c = (x :: s) :: l ->
  Forall2 (unanswered c) is (pending c) -> linked c -> NoDup is -> In i is -> fails_sending a ->
  exists c', task E a c = (Ok tt, c') /\ given_up c is (Some CSocket) c' /\ c_queue c' = c_queue c /\ c_wire c' = c_wire c.
Proof.
  intros R M S B F L N I H. destruct (Close_gives_up (Some CSocket) c is F L N) as (c' & C & G & Q' & W').
  { now rewrite R. }
  exists c'. split; [|split; [exact G|now split]]. apply ok_task. unfold iteration.
  assert (X : start_next E c = (Ok tt, c)).
  { unfold start_next. rewrite (bind_ok get _ c c c eq_refl). destruct (c_queue c); [reflexivity|]. destruct (c_mode c); [congruence| | |]; reflexivity. }
  rewrite (bind_ok _ _ _ _ _ X), (bind_ok get _ c c c eq_refl), R, S.
  erewrite bind_ok; [|reflexivity]. rewrite B, H. erewrite bind_ok.
  2:{ unfold SendRequestData. rewrite (bind_ok get _ c c c eq_refl), B. exact C. }
  rewrite (bind_ok get _ c' c' c' eq_refl). destruct G as (_ & _ & _ & _ & _ & _ & _ & _ & G & _). now rewrite G.
Qed.
(** No connection can be made. *)
Lemma break_connecting a c i rest q : e_chunk E <> O -> by_request E -> ready c -> c_queue c = i :: rest -> new_request c i q ->
  c_response c = None -> c_respq c = [] -> c_socket c = false -> i_connect a = false ->
  exists c', task E a c = (Ok tt, c') /\ given_up c [i] (Some (CExn HTTPException)) c' /\ c_queue c' = rest /\ c_wire c' = c_wire c.
Proof.
  intros Hc Hb Rd Q New Rn Rq S H. destruct (start_request E c i rest q Hc Hb Rd Q New (or_introl Rn))
    as (q1 & head & t & qf & St & _ & Br & Sq & _ & Rs & Tr & _).
  destruct (runs_status0 _ _ _ _ Br) as [_ Tq]. pose proof (runs_response _ _ _ _ Br) as Rq1.
  destruct New as (N & Fr & Se). pose proof (nth_lt _ _ _ N) as Li.
  set (c1 := sd (started c i rest) i q1 [head] (c_socket c) (c_wire c)) in *.
  assert (P : pending c1 = [length (c_resps c)]).
  { unfold c1, started, link, pending, sd. cbn. rewrite Rn. cbn. now rewrite Rq. }
  assert (Lr : c_reqs (started c i rest) = c_reqs c) by (unfold started, link; cbn; rewrite Rn; reflexivity).
  assert (U : unanswered c1 i (length (c_resps c))).
  { exists q1, (new_resp i). split; [unfold c1, sd; cbn; rewrite Lr; now apply nth_upd|]. split; [congruence|]. split; [congruence|]. split; [exact Sq|].
    split; [|now split]. unfold c1, started, link, sd. cbn. rewrite Rn. cbn. rewrite nth_error_app2, Nat.sub_diag by lia. reflexivity. }
  destruct (Close_gives_up (Some (CExn HTTPException)) c1 [i]) as (c' & C & G & Q' & W').
  - rewrite P. constructor; [exact U|constructor].
  - intros X. unfold c1, started, link, sd in X. cbn in X. rewrite Rn in X. discriminate.
  - constructor; [easy|constructor].
  - now left.
  - exists c'. split; [|split; [|split]].
    + unfold task, iteration. rewrite (bind_ok _ _ _ _ _ St), (bind_ok get _ c1 c1 c1 eq_refl).
      assert (X1 : c_request c1 = Some i) by reflexivity. assert (X2 : c_socket c1 = false) by exact S. rewrite X1, X2, H.
      unfold mbind at 1. cbn [raise]. change (is_http HTTPException) with true. cbv iota. exact C.
    + destruct G as (G1 & G2 & G3 & G4). split; [exact G1|]. split; [|split; [|exact G4]].
      * intros k Nk. rewrite G2 by exact Nk. unfold c1, sd. cbn. rewrite Lr. apply nth_upd_other. intros ->. apply Nk. now left.
      * rewrite G3. unfold c1, started, link, sd. cbn. now rewrite Rn.
    + rewrite Q'. unfold c1, started, link, sd. cbn. now rewrite Rn.
    + rewrite W'. reflexivity.
Qed.
End Break.
