(** What a pool of connections may do, without its dictionaries. *)
From Coq Require Import List Arith Bool ZArith.
From Verif Require Import Py HttpPool.
Import ListNotations.

(** The connections that have been created and neither closed nor killed, each with its target and, if
    a thread owns it, that thread *)
Definition entry : Type := cid * target * option thread.
Definition id_of (e : entry) : cid := fst (fst e).
Definition target_of (e : entry) : target := snd (fst e).
Definition owner_of (e : entry) : option thread := snd e.
Definition set_owner (c : cid) (o : option thread) (w : list entry) : list entry :=
  map (fun e => if id_of e =? c then (id_of e, target_of e, o) else e) w.
Definition forget (c : cid) (w : list entry) : list entry := filter (fun e => negb (id_of e =? c)) w.

(** What may be done with connections, at most [limit] of which may exist:
    - a connection is created only while there are fewer than [limit];
    - a thread may take a connection no thread owns, if it owns no other connection to the same target;
    - a thread queues requests on connections it owns, and requests to their targets only;
    - a connection is given back, or killed, while a thread owns it;
    - a connection is closed while no thread owns it. *)
Inductive follows (limit : nat) : list entry -> effect -> list entry -> Prop :=
| f_created w c tg : length w < limit -> ~ In c (map id_of w) -> follows limit w (Created c tg) ((c, tg, None) :: w)
| f_bound w c tg t : In (c, tg, None) w -> (forall d, ~ In (d, tg, Some t) w) -> follows limit w (Bound c t) (set_owner c (Some t) w)
| f_queued w c tg t r : In (c, tg, Some t) w -> follows limit w (Queued c t tg r) w
| f_idled w c tg t : In (c, tg, Some t) w -> follows limit w (Idled c) (set_owner c None w)
| f_closed w c tg : In (c, tg, None) w -> follows limit w (Closed c) (forget c w)
| f_killed w c tg t : In (c, tg, Some t) w -> follows limit w (Killed c) (forget c w).
(** A history that obeys the rules, from no connections to the connections [w] *)
Inductive obeys (limit : nat) : list effect -> list entry -> Prop :=
| o_nil : obeys limit [] []
| o_snoc tr w e w' : obeys limit tr w -> follows limit w e w' -> obeys limit (tr ++ [e]) w'.

(** The connections that exist after a history, from the history alone *)
Fixpoint live_from (l : list cid) (tr : list effect) : list cid :=
  match tr with
  | [] => l
  | Created c _ :: tr => live_from (c :: l) tr
  | Closed c :: tr | Killed c :: tr => live_from (filter (fun d => negb (d =? c)) l) tr
  | _ :: tr => live_from l tr
  end.
Definition live (tr : list effect) : list cid := live_from [] tr.

(** ActiveCleanup may kill a connection while its thread is still busy with it.  If that thread then is
    bound to a new connection to the same target before it notices, giving back the killed connection is a surprise *)
Definition surprise (s : sys) (e : event) : Prop :=
  match e with
  | EIdle t c _ =>
      exists d, d <> c /\ In (Some t, o_target (heap (pool s) c), d) (active (pool s))
  | _ => False
  end.
Definition no_surprise (s : sys) (e : event) : Prop := ~ surprise s e.
Definition anything (s : sys) (e : event) : Prop := True.
(** No surprises, and only schemes the pool knows *)
Definition polite (s : sys) (e : event) : Prop :=
  no_surprise s e /\ match e with EQueue w _ => supported (w_tg w) = true | _ => True end.
(** The event is a call of QueueRequest looking for a connection, at once or after waiting *)
Definition tries (s : sys) (e : event) (q : waiter) (now : Z) : Prop :=
  (e = EQueue q now /\ closing (pool s) = false) \/ (exists i, e = EResume i now /\ nth_error (woken s) i = Some q).
(** The connection an effect is about *)
Definition about (e : effect) : cid := match e with Created c _ | Bound c _ | Queued c _ _ _ | Idled c | Closed c | Killed c => c end.
Definition creation (e : effect) : bool := match e with Created _ _ => true | _ => false end.
Definition ending (c : cid) (e : effect) : Prop := e = Closed c \/ e = Killed c.
(** The connections created in a history *)
Definition created (tr : list effect) : list cid := map about (filter creation tr).
