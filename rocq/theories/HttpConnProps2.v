(** What the HTTP client tells the caller when a connection breaks (C182). *)
From Coq Require Import Lia Zify.
From Verif Require Import Py Iso Dec XmlUtils Xsd Imscp Shapes HttpCore HttpParams HttpSpec OdPage HttpConn HttpConnSpec HttpConnProofs
  HttpConnProofs2 HttpConnProofs3 HttpConnProofs6 HttpConnProofs7 HttpConnProofs8 HttpConnProofs9 HttpConnProps.
Open Scope Z_scope.

Lemma run_one E a c c' : task E a c = (Ok tt, c') -> run E [OpTask a] c = c'.
Proof. intros H. unfold run. cbn. now rewrite H. Qed.

(** An error on the socket while responses are awaited: all requests are told of it. *)
Theorem C182_broken E a c is : quiescent c -> pending c <> [] -> Forall2 (unanswered c) is (pending c) -> NoDup is ->
  i_broken a = true ->
  let c' := run E [OpTask a] c in given_up c is (Some CIndicated) c' /\ c_queue c' = [] /\ c_wire c' = c_wire c.
Proof.
  intros (Q1 & Q2 & Q3 & Q4 & Q5 & _) P F N B. destruct (break_reading E a c is (Some CIndicated)) as (c' & T & G & X & Y); try assumption.
  { now left. }
  cbv zeta. rewrite (run_one _ _ _ _ T), <- Q1. now repeat split; try apply G.
Qed.
(** A request cannot be sent: it and those that wait for responses are told of it, and those that
    wait to be sent are kept. *)
Theorem C182_sending E a c i is x s l : c_request c = Some i -> c_mode c <> REQ_READY -> c_socket c = true -> c_send c = (x :: s) :: l ->
  linked c -> Forall2 (unanswered c) is (pending c) -> NoDup is -> In i is -> fails_sending a ->
  let c' := run E [OpTask a] c in given_up c is (Some CSocket) c' /\ c_queue c' = c_queue c /\ c_wire c' = c_wire c.
Proof.
  intros R M S B L F N I H. destruct (break_sending E a c i is x s l) as (c' & T & G & X & Y); try assumption.
  cbv zeta. now rewrite (run_one _ _ _ _ T).
Qed.
(** No connection can be made: the first request is told of it, the others are kept. *)
Theorem C182_connecting E a c i rest q : e_chunk E <> O -> by_request E -> ready c -> c_response c = None -> c_respq c = [] ->
  c_socket c = false -> c_queue c = i :: rest -> new_request c i q -> i_connect a = false ->
  let c' := run E [OpTask a] c in given_up c [i] (Some (CExn HTTPException)) c' /\ c_queue c' = rest /\ c_wire c' = c_wire c.
Proof.
  intros Hc Hb Rd Rn Rq S Q New H. destruct (break_connecting E a c i rest q) as (c' & T & G & X & Y); try assumption.
  cbv zeta. now rewrite (run_one _ _ _ _ T).
Qed.
(** The connection is closed or reset by the server: the requests are finished, without an error. *)
Theorem C182_reset_partial E a c is : quiescent c -> pending c <> [] -> Forall2 (unanswered c) is (pending c) -> NoDup is ->
  fails_reading a \/ hangs_up a ->
  let c' := run E [OpTask a] c in given_up c is None c' /\ c_queue c' = [] /\ c_wire c' = c_wire c.
Proof.
  intros (Q1 & Q2 & Q3 & Q4 & Q5 & _) P F N B. destruct (break_reading E a c is None) as (c' & T & G & X & Y); try assumption.
  { right. now split. }
  cbv zeta. rewrite (run_one _ _ _ _ T), <- Q1. now repeat split; try apply G.
Qed.

(** Two requests wait for their responses. *)
Lemma unanswered2 : Forall2 (unanswered sent2) [0%nat; 1%nat] (pending sent2).
Proof.
  change (pending sent2) with [0%nat; 1%nat].
  constructor; [|constructor; [|constructor]]; eexists; eexists; (split; [vm_compute; reflexivity|]); (split; [reflexivity|]);
    (split; [reflexivity|]); (split; [reflexivity|]); (split; [vm_compute; reflexivity|]); split; reflexivity.
Qed.
Example C182_example : quiescent sent2 /\ pending sent2 <> [] /\ NoDup [0%nat; 1%nat].
Proof. split; [exact quiet2|]. split; [vm_compute; discriminate|]. repeat (constructor; [vm_compute; lia|]). constructor. Qed.
Example C182_result : c_log (run E0 [OpTask (mkInput true None None true false)] sent2) = [EvFinished 0 0; EvFinished 1 0].
Proof. vm_compute. reflexivity. Qed.
(** A request is half sent. *)
Definition half_sent : conn := run E0 ([OpNew get1; OpNew get2; OpQueue 0; OpQueue 1] ++ tasks [sending 3]) new_conn.
Example C182_sending_example : c_request half_sent = Some 0%nat /\ c_mode half_sent <> REQ_READY /\ c_socket half_sent = true /\
  (exists x s l, c_send half_sent = (x :: s) :: l) /\ linked half_sent /\ Forall2 (unanswered half_sent) [0%nat] (pending half_sent) /\
  fails_sending (mkInput true (Some SendError) None false false) /\ c_queue half_sent = [1%nat].
Proof.
  split; [reflexivity|]. split; [vm_compute; discriminate|]. split; [reflexivity|].
  split; [do 3 eexists; vm_compute; reflexivity|]. split; [intros X; vm_compute in X; discriminate|].
  split; [|split; reflexivity]. change (pending half_sent) with [0%nat].
  constructor; [|constructor]. eexists; eexists; (split; [vm_compute; reflexivity|]); (split; [reflexivity|]);
    (split; [reflexivity|]); (split; [reflexivity|]); (split; [vm_compute; reflexivity|]); split; reflexivity.
Qed.
Example C182_connecting_example : c_socket two = false /\ c_queue two = [0%nat; 1%nat] /\
  c_queue (run E0 [OpTask (mkInput false None None false false)] two) = [1%nat] /\
  c_log (run E0 [OpTask (mkInput false None None false false)] two) = [EvFinished 0 0].
Proof. vm_compute. repeat split. Qed.
(** The error of recv is not passed on. *)
Theorem C182_refuted : ~ (forall E a c is i, quiescent c -> pending c <> [] -> Forall2 (unanswered c) is (pending c) -> NoDup is ->
  fails_reading a -> In i is -> exists q, nth_error (c_reqs (run E [OpTask a] c)) i = Some q /\ q_error q <> None).
Proof.
  intros H. destruct C182_example as (Q & P & N).
  destruct (H E0 (mkInput true None (Some RecvError) false false) sent2 [0%nat; 1%nat] 0%nat Q P unanswered2 N) as (q & X & Y).
  - now split.
  - now left.
  - vm_compute in X. injection X as <-. now apply Y.
Qed.

Print Assumptions C182_broken.
Print Assumptions C182_sending.
Print Assumptions C182_connecting.
Print Assumptions C182_reset_partial.
Print Assumptions C182_refuted.
