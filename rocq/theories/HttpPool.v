(** Model of the pool of HTTP connections: pyslet/pyslet/rfc2616.py 44-115 (Connection), 603-770 and 824-889 (HTTPRequestManager).

    Simplifications.
    - Everything in the pool happens while managerLock is held, so a step is what a thread does between
      taking managerLock and giving it up, by the end of the method or by wait.
    - A connection is its id; what the attributes of the object hold is in [heap].
    - Times are integers.  A request is a number.
    - The order in which a dictionary of connections lists its values is [values], any permutation.
    - ActiveCleanup and IdleCleanup kill and close the connections they have removed after they gave up
      the lock; here this is one step with the removal, as nothing in the pool reads what Kill and Close change.
    - User-Agent headers, SetManager, logging and the work of ConnectionTask, of which only the
      assignment of lastActive and the length of the queue matter here, are left out. *)
From Coq Require Import List Arith Bool ZArith Lia.
From Verif Require Import Py.
Import ListNotations.
Open Scope nat_scope.

Definition thread := nat.
Definition cid := nat.
Definition request := nat.
(** 106-107 TargetKey: scheme, host, port *)
Definition target : Type := str * str * Z.
Definition tg_eqb (a b : target) : bool :=
  str_eqb (fst (fst a)) (fst (fst b)) && str_eqb (snd (fst a)) (snd (fst b)) && (snd a =? snd b)%Z.
(** 103-104 ThreadTargetKey; None for a connection without thread *)
Definition key : Type := option thread * target.
Definition ot_eqb (a b : option thread) : bool :=
  match a, b with Some x, Some y => x =? y | None, None => true | _, _ => false end.
Definition key_eqb (a b : key) : bool := ot_eqb (fst a) (fst b) && tg_eqb (snd a) (snd b).

(** Dictionaries *)
Section Dict.
Context {K V : Type}.
Variable eqb : K -> K -> bool.
Definition get (k : K) (l : list (K * V)) : option V :=
  match find (fun p => eqb (fst p) k) l with Some p => Some (snd p) | None => None end.
Definition del (k : K) (l : list (K * V)) : list (K * V) := filter (fun p => negb (eqb (fst p) k)) l.
Definition put (k : K) (v : V) (l : list (K * V)) : list (K * V) := (k, v) :: del k l.
End Dict.
(** Dictionaries of connections by their ids *)
Definition mem (c : cid) (l : list cid) : bool := existsb (Nat.eqb c) l.
Definition drop (c : cid) (l : list cid) : list cid := filter (fun d => negb (d =? c)) l.
Definition add (c : cid) (l : list cid) : list cid := c :: drop c l.

(** 79-101: the attributes id, scheme, host and port, threadId, lastActive, requestQueue *)
Record cobj := mkObj { o_target : target; o_thread : option thread; o_last : Z; o_queue : list request }.
(** 603-621 *)
Record mgr := mkMgr {
  nextId : cid; heap : cid -> cobj;
  active : list (key * cid);            (* cActiveThreadTargets *)
  threads : list (thread * list cid);   (* cActiveThreads *)
  idleT : list (target * list cid);     (* cIdleTargets *)
  idle : list cid;                      (* cIdleList *)
  closing : bool }.
Definition no_obj : cobj := mkObj ([], [], 0%Z) None 0%Z [].
Definition new_mgr : mgr := mkMgr 1 (fun _ => no_obj) [] [] [] [] false.
Definition upd (c : cid) (o : cobj) (h : cid -> cobj) : cid -> cobj := fun d => if d =? c then o else h d.

Inductive error := ConnectionClosed | RequestManagerBusy | NotImplementedError | KeyError.
(** What is done with connections *)
Inductive effect :=
| Created (c : cid) (tg : target)
| Bound (c : cid) (t : thread)                    (* the thread now owns the connection *)
| Queued (c : cid) (t : thread) (tg : target) (r : request)
| Idled (c : cid)                                 (* the connection is at the disposal of every thread *)
| Closed (c : cid) | Killed (c : cid).

Section Pool.
(** maxConnections; the order of the values of a dictionary *)
Variable maxConnections : nat.
Variable values : list cid -> list cid.

(** list.sort with 109-112 __cmp__: stable, by lastActive *)
Fixpoint insert (h : cid -> cobj) (c : cid) (l : list cid) : list cid :=
  match l with
  | [] => [c]
  | d :: l' => if (o_last (h c) <=? o_last (h d))%Z then c :: l else d :: insert h c l'
  end.
Definition sort (h : cid -> cobj) (l : list cid) : list cid := fold_right (insert h) [] l.

(** 716-719, 747-751: the connection is taken out of cIdleList and cIdleTargets; false is KeyError *)
Definition leave_idle (c : cid) (m : mgr) : mgr * bool :=
  let tg := o_target (heap m c) in
  match get tg_eqb tg (idleT m) with
  | None => (mkMgr (nextId m) (heap m) (active m) (threads m) (idleT m) (drop c (idle m)) (closing m), false)
  | Some l =>
      if mem c l then
        (mkMgr (nextId m) (heap m) (active m) (threads m)
           match drop c l with [] => del tg_eqb tg (idleT m) | l' => put tg_eqb tg l' (idleT m) end
           (drop c (idle m)) (closing m), true)
      else (mkMgr (nextId m) (heap m) (active m) (threads m) (idleT m) (drop c (idle m)) (closing m), false)
  end.
(** 704-719 _ActivateConnection *)
Definition ActivateConnection (c : cid) (t : thread) (m : mgr) : mgr * bool :=
  let o := heap m c in
  let tg := o_target o in
  let m := mkMgr (nextId m) (upd c (mkObj tg (Some t) (o_last o) (o_queue o)) (heap m))
             (put key_eqb (Some t, tg) c (active m))
             (put Nat.eqb t match get Nat.eqb t (threads m) with Some l => add c l | None => [c] end (threads m))
             (idleT m) (idle m) (closing m) in
  if mem c (idle m) then leave_idle c m else (m, true).
(** 721-743 _DeactivateConnection; the number is of notify *)
Definition DeactivateConnection (c : cid) (m : mgr) : mgr * list effect * nat :=
  let o := heap m c in
  let tg := o_target o in
  let k := (o_thread o, tg) in
  let '(m, es, n) :=
    match get key_eqb k (active m) with
    | Some _ =>
        (mkMgr (nextId m) (heap m) (del key_eqb k (active m)) (threads m)
           (put tg_eqb tg match get tg_eqb tg (idleT m) with Some l => add c l | None => [c] end (idleT m))
           (add c (idle m)) (closing m), [Idled c], 1)
    | None => (m, [], 0)
    end in
  let ths :=
    match o_thread o with
    | None => threads m
    | Some t =>
        match get Nat.eqb t (threads m) with
        | None => threads m
        | Some l => match drop c l with [] => del Nat.eqb t (threads m) | l' => put Nat.eqb t l' (threads m) end
        end
    end in
  (mkMgr (nextId m) (upd c (mkObj tg None (o_last o) (o_queue o)) (heap m)) (active m) ths (idleT m) (idle m) (closing m), es, n).
(** 745-752 _DeleteIdleConnection *)
Definition DeleteIdleConnection (c : cid) (m : mgr) : mgr * list effect * bool :=
  if mem c (idle m) then
    let '(m, ok) := leave_idle c m in (m, if ok then [Closed c] else [], ok)
  else (m, [], true).
(** 761-770 _NewConnection with 754-759 _NextId and 79-101 *)
Definition supported (tg : target) : bool :=
  str_eqb (fst (fst tg)) (lit "http") || str_eqb (fst (fst tg)) (lit "https").
Definition NewConnection (tg : target) (m : mgr) : option (mgr * cid) :=
  if supported tg then
    let c := nextId m in
    Some (mkMgr (S c) (upd c (mkObj tg None 0%Z []) (heap m)) (active m) (threads m) (idleT m) (idle m) (closing m), c)
  else None.

Inductive found := Found (c : cid) | Full | Failed (e : error) | Endless.
(** 650-675: steps 1 to 4.  Step 4 goes round again; [fuel] bounds how often, see [search_ends] *)
Fixpoint search (fuel : nat) (t : thread) (tg : target) (m : mgr) : mgr * list effect * found :=
  match get key_eqb (Some t, tg) (active m) with
  | Some c => (m, [], Found c)
  | None =>
      match get tg_eqb tg (idleT m) with
      | Some l =>
          match rev (sort (heap m) (values l)) with
          | c :: _ =>
              let '(m, ok) := ActivateConnection c t m in
              if ok then (m, [Bound c t], Found c) else (m, [], Failed KeyError)
          | [] => (m, [], Failed KeyError)   (* cIdle[-1] of an empty list *)
          end
      | None =>
          if length (active m) + length (idle m) <? maxConnections then
            match NewConnection tg m with
            | None => (m, [], Failed NotImplementedError)
            | Some (m, c) =>
                let '(m, ok) := ActivateConnection c t m in
                if ok then (m, [Created c tg; Bound c t], Found c) else (m, [Created c tg], Failed KeyError)
            end
          else
            match sort (heap m) (values (idle m)) with
            | c :: _ =>
                let '(m, es, ok) := DeleteIdleConnection c m in
                if ok then
                  match fuel with
                  | O => (m, es, Endless)
                  | S fuel => let '(m, es', r) := search fuel t tg m in (m, es ++ es', r)
                  end
                else (m, es, Failed KeyError)
            | [] => (m, [], Full)
            end
      end
  end.

(** A call of QueueRequest that waits: its thread, target, request, timeout and start *)
Record waiter := mkW { w_t : thread; w_tg : target; w_r : request; w_timeout : option Z; w_start : Z }.
(** The pool, the calls that wait and the calls whose wait has ended *)
Record sys := mkSys { pool : mgr; waiting : list waiter; woken : list waiter }.
Definition init : sys := mkSys new_mgr [] [].
Inductive outcome := Enqueued (c : cid) | Waits | Raised (e : error) | Done | Again | Returned | Forever.

(** 688-690 *)
Definition enqueue (c : cid) (r : request) (m : mgr) : mgr :=
  let o := heap m c in
  mkMgr (nextId m) (upd c (mkObj (o_target o) (o_thread o) (o_last o) (o_queue o ++ [r])) (heap m))
    (active m) (threads m) (idleT m) (idle m) (closing m).
(** 650-690: the search, from its beginning or after a wait, and what follows it *)
Definition attempt (w : waiter) (now : Z) (s : sys) : sys * list effect * outcome :=
  let '(m, es, r) := search (length (idle (pool s))) (w_t w) (w_tg w) (pool s) in
  match r with
  | Found c => (mkSys (enqueue c (w_r w) m) (waiting s) (woken s), es ++ [Queued c (w_t w) (w_tg w) (w_r w)], Enqueued c)
  | Failed e => (mkSys m (waiting s) (woken s), es, Raised e)
  | Endless => (mkSys m (waiting s) (woken s), es, Forever)
  | Full =>
      if match w_timeout w with
         | None => false
         | Some d => (d =? 0)%Z || (now >? w_start w + d)%Z
         end
      then (mkSys m (waiting s) (woken s), es, Raised RequestManagerBusy)
      else (mkSys m (waiting s ++ [w]) (woken s), es, Waits)
  end.
(** 623-690 QueueRequest, as far as its first wait *)
Definition QueueRequest (w : waiter) (now : Z) (s : sys) : sys * list effect * outcome :=
  if closing (pool s) then (s, [], Raised ConnectionClosed) else attempt w now s.
(** threading.Condition.notify: the first [n] that wait *)
Definition notify (n : nat) (s : sys) : sys := mkSys (pool s) (skipn n (waiting s)) (woken s ++ firstn n (waiting s)).

(** 830-838: the loop of IdleCleanup *)
Fixpoint idle_loop (bound : Z) (l : list cid) (m : mgr) : mgr * list cid * bool :=
  match l with
  | [] => (m, [], true)
  | c :: l =>
      if (o_last (heap m c) <? bound)%Z then
        match get tg_eqb (o_target (heap m c)) (idleT m) with
        | None =>
            let '(m, cs, ok) := idle_loop bound l (mkMgr (nextId m) (heap m) (active m) (threads m) (idleT m) (drop c (idle m)) (closing m)) in
            (m, c :: cs, ok)
        | Some _ =>
            let '(m, ok) := leave_idle c m in
            if ok then let '(m, cs, ok) := idle_loop bound l m in (m, c :: cs, ok) else (m, [c], false)
        end
      else idle_loop bound l m
  end.
(** 824-843 IdleCleanup *)
Definition IdleCleanup (maxInactive now : Z) (s : sys) : sys * list effect * outcome :=
  let '(m, cs, ok) := idle_loop (now - maxInactive) (values (idle (pool s))) (pool s) in
  if ok then (mkSys m (waiting s) (woken s), map Closed cs, Returned)
  else (mkSys m (waiting s) (woken s), [], Raised KeyError).
(** 861-867: the loops of ActiveCleanup *)
Fixpoint active_loop (bound : Z) (l : list (thread * cid)) (m : mgr) : mgr * list cid * bool :=
  match l with
  | [] => (m, [], true)
  | (t, c) :: l =>
      if (o_last (heap m c) <? bound)%Z then
        let ths := match get Nat.eqb t (threads m) with Some d => put Nat.eqb t (drop c d) (threads m) | None => threads m end in
        let k := (o_thread (heap m c), o_target (heap m c)) in
        match get key_eqb k (active m) with
        | None => (mkMgr (nextId m) (heap m) (active m) ths (idleT m) (idle m) (closing m), [], false)
        | Some _ =>
            let '(m, cs, ok) := active_loop bound l
              (mkMgr (nextId m) (heap m) (del key_eqb k (active m)) ths (idleT m) (idle m) (closing m)) in
            (m, c :: cs, ok)
        end
      else active_loop bound l m
  end.
Definition bound_list (m : mgr) : list (thread * cid) := flat_map (fun p => map (pair (fst p)) (values (snd p))) (threads m).
(** 845-876 ActiveCleanup *)
Definition ActiveCleanup (maxInactive now : Z) (s : sys) : sys * list effect * outcome :=
  let '(m, cs, ok) := active_loop (now - maxInactive) (bound_list (pool s)) (pool s) in
  if ok then (notify (length cs) (mkSys m (waiting s) (woken s)), map Killed cs, Returned)
  else (mkSys m (waiting s) (woken s), [], Raised KeyError).
(** 884-887: what Close does before it calls ActiveCleanup(0) and IdleCleanup(0) and goes round again *)
Definition CloseRound (s : sys) : sys * list effect * outcome :=
  let m := pool s in
  (mkSys (mkMgr (nextId m) (heap m) (active m) (threads m) (idleT m) (idle m) true) (waiting s) (woken s), [],
   if length (active m) + length (idle m) =? 0 then Done else Again).

(** What can happen.  A thread runs ConnectionTask (117-249) of a connection: the time is recorded, [n]
    requests are taken from the queue, and if there is nothing to do the connection is deactivated *)
Inductive event :=
| EQueue (w : waiter) (now : Z)
| EResume (i : nat) (now : Z)        (* the [i]th call whose wait has ended goes on *)
| ETimeout (i : nat)                 (* the wait of the [i]th call that waits is over *)
| ETask (t : thread) (c : cid) (n : nat) (now : Z)
| EIdle (t : thread) (c : cid) (now : Z)
| EIdleCleanup (maxInactive now : Z)
| EActiveCleanup (maxInactive now : Z)
| ECloseRound.
(** 153, 157 *)
Definition touch (c : cid) (n : nat) (now : Z) (m : mgr) : mgr :=
  let o := heap m c in
  mkMgr (nextId m) (upd c (mkObj (o_target o) (o_thread o) now (skipn n (o_queue o))) (heap m))
    (active m) (threads m) (idleT m) (idle m) (closing m).
Definition without {A} (i : nat) (l : list A) : list A := firstn i l ++ skipn (S i) l.
Definition step (s : sys) (e : event) : sys * list effect * outcome :=
  match e with
  | EQueue w now => QueueRequest w now s
  | EResume i now =>
      match nth_error (woken s) i with
      | Some w => attempt w now (mkSys (pool s) (waiting s) (without i (woken s)))
      | None => (s, [], Returned)
      end
  | ETimeout i =>
      match nth_error (waiting s) i with
      | Some w => (mkSys (pool s) (without i (waiting s)) (woken s ++ [w]), [], Returned)
      | None => (s, [], Returned)
      end
  | ETask t c n now => (mkSys (touch c n now (pool s)) (waiting s) (woken s), [], Returned)
  | EIdle t c now =>
      let '(m, es, n) := DeactivateConnection c (touch c 0 now (pool s)) in
      (notify n (mkSys m (waiting s) (woken s)), es, Returned)
  | EIdleCleanup d now => IdleCleanup d now s
  | EActiveCleanup d now => ActiveCleanup d now s
  | ECloseRound => CloseRound s
  end.
(** A thread that waits does nothing else; a thread runs ConnectionTask of connections bound to it, until
    it has deactivated them, also when they were killed meanwhile (ThreadTask 786-806 goes through a list it took before) *)
Definition busy (s : sys) (t : thread) : Prop := In t (map w_t (waiting s ++ woken s)).
Definition possible (s : sys) (e : event) : Prop :=
  match e with
  | EQueue w _ => ~ busy s (w_t w)
  | EResume i _ => i < length (woken s)
  | ETimeout i => exists w, nth_error (waiting s) i = Some w /\ w_timeout w <> None
  | ETask t c _ _ | EIdle t c _ => c < nextId (pool s) /\ o_thread (heap (pool s) c) = Some t /\ ~ busy s t
  | _ => True
  end.
(** The histories in which every event satisfies [P]: what was done with connections, and where it led *)
Inductive runs (P : sys -> event -> Prop) : list effect -> sys -> Prop :=
| runs_init : runs P [] init
| runs_step tr s e s' es o : runs P tr s -> possible s e -> P s e -> step s e = (s', es, o) -> runs P (tr ++ es) s'.
End Pool.
