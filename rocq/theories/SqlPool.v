(** Model of the pool of database connections: pyslet/pyslet/odata2/sqlds.py 2493-2520 (locks), 2572-2587 (the pool), 2877-2996 (AcquireConnection,
    ReleaseConnection), 3027-3086 (close).

    Simplifications.
    - Everything in the pool happens while cPoolLock is held, so a step is what a thread does between
      taking cPoolLock and giving it up, by the end of the method or by wait.
    - A thread is its ident.  threading.RLock compares idents, as in Python 2.7.
    - A step is given what the outside decides: whether OpenConnection succeeds, which item popitem
      takes, whether the time is over, which threads are alive.
    - Connections are numbered in the order they are opened.
    - close looks at the locked connections in the order of the list.  Log messages are left out. *)
From Coq Require Import List Arith Bool ZArith Lia.
Import ListNotations.
Open Scope nat_scope.

Definition thread := nat.
Definition conn := nat.

(** ** Locks: threading.RLock, and 2493-2507 DummyLock *)
Inductive rlock := Dummy | Free | Owned (t : thread) (n : nat).
(** acquire(False) *)
Definition rl_acquire (t : thread) (l : rlock) : option rlock :=
  match l with
  | Dummy => Some Dummy
  | Free => Some (Owned t 1)
  | Owned o n => if o =? t then Some (Owned t (S n)) else None
  end.
(** release(): None is RuntimeError *)
Definition rl_release (t : thread) (l : rlock) : option rlock :=
  match l with
  | Dummy => Some Dummy
  | Free => None
  | Owned o n => if o =? t then Some match n with S (S m) => Owned o (S m) | _ => Free end else None
  end.

(** 2509-2519 SQLConnectionLock *)
Record clock := mkClock { k_tid : thread; k_lock : rlock; k_locked : nat; k_dbc : conn }.
Record pool := mkPool {
  module : rlock;
  locked : list (thread * clock); unlocked : list (thread * clock); dead : list clock;
  closing : bool; fresh : conn }.

(** dictionaries *)
Definition lookup (t : thread) (l : list (thread * clock)) : option clock :=
  match find (fun p => fst p =? t) l with Some p => Some (snd p) | None => None end.
Definition del (t : thread) (l : list (thread * clock)) : list (thread * clock) := filter (fun p => negb (fst p =? t)) l.
Definition put (t : thread) (k : clock) (l : list (thread * clock)) : list (thread * clock) := (t, k) :: del t l.
(** popitem; the item is the [n]th or else the first *)
Definition popitem (n : nat) (l : list (thread * clock)) : option ((thread * clock) * list (thread * clock)) :=
  match nth_error l n with
  | Some p => Some (p, firstn n l ++ skipn (S n) l)
  | None => match l with p :: l' => Some (p, l') | [] => None end
  end.

(** RuntimeError of a lock; the exception of OpenConnection *)
Inductive error := RuntimeError | OpenError.
(** What the database sees *)
Inductive effect := Opened (c : conn) (t : thread) | Closed (c : conn) | Broken (c : conn).
(** Where a thread waits *)
Inductive phase := WModule | WConn | WClose (was_dead : bool) (k : clock).
Inductive outcome :=
| Got (c : conn) | Nothing | Waits (w : phase) | Raised (e : error) | Released | Logged | Closes
| Stuck.         (* the thread never gives up cPoolLock *)

Section Pool.
(** dbapi.threadsafety, maxConnections *)
Variable safety : Z.
Variable maxConnections : nat.
(** 2572-2582 *)
Definition level0 : bool := (safety =? 0)%Z.
Definition cPoolMax : nat := if level0 then 1 else maxConnections.
Definition new_lock : rlock := if level0 then Dummy else Free.
Definition new_pool : pool := mkPool (if level0 then Free else Dummy) [] [] [] false 0.

(** 2929-2934: the connection is taken *)
Definition take (t : thread) (k : clock) (p : pool) (es : list effect) : pool * list effect * outcome :=
  match rl_acquire t (k_lock k) with
  | Some l => (mkPool (module p) (put t (mkClock t l (S (k_locked k)) (k_dbc k)) (locked p)) (unlocked p) (dead p) (closing p) (fresh p),
               es, Got (k_dbc k))
  | None => (p, es, Stuck)
  end.
(** 2902-2939: the search for a connection, from its beginning or after a wait.
    [open_ok]: OpenConnection succeeds; otherwise it raises an exception *)
Definition seek (t : thread) (open_ok : bool) (pick : nat) (expired : bool) (p : pool) : pool * list effect * outcome :=
  match lookup t (unlocked p) with
  | Some k => take t k (mkPool (module p) (locked p) (del t (unlocked p)) (dead p) (closing p) (fresh p)) []
  | None =>
      if length (unlocked p) + length (locked p) <? cPoolMax then
        if open_ok then
          take t (mkClock t new_lock 0 (fresh p)) (mkPool (module p) (locked p) (unlocked p) (dead p) (closing p) (S (fresh p))) [Opened (fresh p) t]
        else (p, [], Raised OpenError)
      else
        match popitem pick (unlocked p) with
        | Some ((_, k), rest) =>
            if (safety >? 1)%Z then
              take t k (mkPool (module p) (locked p) rest (dead p) (closing p) (fresh p)) []
            else if open_ok then
              take t (mkClock (k_tid k) (k_lock k) (k_locked k) (fresh p))
                (mkPool (module p) (locked p) rest (dead p) (closing p) (S (fresh p))) [Closed (k_dbc k); Opened (fresh p) t]
            else (mkPool (module p) (locked p) rest (dead p) (closing p) (fresh p), [Closed (k_dbc k)], Raised OpenError)
        | None =>
            if expired then
              match rl_release t (module p) with
              | Some m => (mkPool m (locked p) (unlocked p) (dead p) (closing p) (fresh p), [], Nothing)
              | None => (p, [], Raised RuntimeError)
              end
            else (p, [], Waits WConn)
        end
  end.
(** 2885-2901: the module lock and the connection the thread already has *)
Definition seek_module (t : thread) (open_ok : bool) (pick : nat) (p : pool) : pool * list effect * outcome :=
  match rl_acquire t (module p) with
  | None => (p, [], Waits WModule)
  | Some m =>
      let p := mkPool m (locked p) (unlocked p) (dead p) (closing p) (fresh p) in
      match lookup t (locked p) with
      | Some k =>
          match rl_acquire t (k_lock k) with
          | Some l =>
              (mkPool (module p) (put t (mkClock (k_tid k) l (S (k_locked k)) (k_dbc k)) (locked p)) (unlocked p) (dead p) (closing p) (fresh p),
               [], Got (k_dbc k))
          | None =>
              seek t open_ok pick false (mkPool (module p) (del t (locked p)) (unlocked p) (dead p ++ [k]) (closing p) (fresh p))
          end
      | None => seek t open_ok pick false p
      end
  end.
(** 2877-2939 AcquireConnection, as far as its first wait *)
Definition AcquireConnection (t : thread) (open_ok : bool) (pick : nat) (p : pool) : pool * list effect * outcome :=
  if closing p then (p, [], Nothing) else seek_module t open_ok pick p.
(** The same after a wait: 2886-2890 and 2923-2928 *)
Definition acquire_again (w : phase) (t : thread) (expired open_ok : bool) (pick : nat) (p : pool) : pool * list effect * outcome :=
  match w with
  | WModule => if expired then (p, [], Nothing) else seek_module t open_ok pick p
  | _ => seek t open_ok pick expired p
  end.

(** 2940-2996 ReleaseConnection; the boolean is notify() *)
Definition ReleaseConnection (t : thread) (c : conn) (p : pool) : pool * bool * list effect * outcome :=
  match match lookup t (locked p) with
        | Some k => if k_dbc k =? c then Some k else None
        | None => None
        end with
  | Some k =>
      match rl_release t (k_lock k) with
      | None => (p, false, [], Raised RuntimeError)
      | Some l =>
          match rl_release t (module p) with
          | None => (mkPool (module p) (put t (mkClock (k_tid k) l (k_locked k) (k_dbc k)) (locked p)) (unlocked p) (dead p) (closing p) (fresh p),
                     false, [], Raised RuntimeError)
          | Some m =>
              let k' := mkClock (k_tid k) l (pred (k_locked k)) (k_dbc k) in
              if pred (k_locked k) =? 0 then
                (mkPool m (del t (locked p)) (put t k' (unlocked p)) (dead p) (closing p) (fresh p), true, [], Released)
              else (mkPool m (put t k' (locked p)) (unlocked p) (dead p) (closing p) (fresh p), false, [], Released)
          end
      end
  | None =>
      match find (fun q => k_dbc (snd q) =? c) (locked p) with
      | Some (bad, k) =>
          match rl_release t (k_lock k) with
          | None => (p, false, [], Raised RuntimeError)
          | Some l =>
              match rl_release t (module p) with
              | None => (mkPool (module p) (put bad (mkClock (k_tid k) l (k_locked k) (k_dbc k)) (locked p)) (unlocked p) (dead p) (closing p) (fresh p),
                         false, [], Raised RuntimeError)
              | Some m =>
                  let k' := mkClock (k_tid k) l (pred (k_locked k)) (k_dbc k) in
                  if pred (k_locked k) =? 0 then
                    (mkPool m (del bad (locked p)) (put (k_tid k) k' (unlocked p)) (dead p) (closing p) (fresh p), true, [], Released)
                  else (mkPool m (put bad k' (locked p)) (unlocked p) (dead p) (closing p) (fresh p), false, [], Released)
              end
          end
      | None =>
          (* the dead pool *)
          match find (fun k => k_dbc k =? c) (dead p) with
          | Some k =>
              match rl_release t (k_lock k), rl_release t (module p) with
              | Some l, Some m =>
                  let k' := mkClock (k_tid k) l (pred (k_locked k)) (k_dbc k) in
                  let others := filter (fun k => negb (k_dbc k =? c)) (dead p) in
                  if pred (k_locked k) =? 0 then
                    (mkPool m (locked p) (unlocked p) others (closing p) (fresh p), false, [Closed c], Released)
                  else (mkPool m (locked p) (unlocked p) (k' :: others) (closing p) (fresh p), false, [], Released)
              | _, _ => (p, false, [], Raised RuntimeError)
              end
          | None => (p, false, [], Logged)
          end
      end
  end.

(** ** close: 3027-3086 *)
(** 3054-3069, 3073-3086: one connection in use.  None: the loop does not end within [fuel] *)
Fixpoint close_one (fuel : nat) (t : thread) (alive : thread -> bool) (noWait : bool) (k : clock) : option (list effect * bool) :=
  match fuel with
  | O => None
  | S fuel =>
      match rl_acquire t (k_lock k) with
      | Some _ => Some ([Closed (k_dbc k)], false)
      | None =>
          if alive (k_tid k) then
            if noWait then Some ([], false) else Some ([Broken (k_dbc k)], true)
          else
            match close_one fuel t alive noWait k with
            | Some (es, w) => Some (Closed (k_dbc k) :: es, w)
            | None => None
            end
      end
  end.
Variable fuel : nat.
Fixpoint close_locked (t : thread) (alive : thread -> bool) (l : list (thread * clock)) : list (thread * clock) * list effect * outcome :=
  match l with
  | [] => ([], [], Closes)
  | (_, k) :: l' =>
      match close_one fuel t alive false k with
      | None => (l', [], Stuck)
      | Some (es, true) => (l', es, Waits (WClose false k))
      | Some (es, false) => let '(r, es', o) := close_locked t alive l' in (r, es ++ es', o)
      end
  end.
Fixpoint close_dead (t : thread) (alive : thread -> bool) (l : list clock) : list clock * list effect * outcome :=
  match l with
  | [] => ([], [], Closes)
  | k :: l' =>
      match close_one fuel t alive false k with
      | None => (l', [], Stuck)
      | Some (es, true) => (l', es, Waits (WClose true k))
      | Some (es, false) => let '(r, es', o) := close_dead t alive l' in (r, es ++ es', o)
      end
  end.
Definition close_rest (t : thread) (alive : thread -> bool) (p : pool) (es : list effect) : pool * list effect * outcome :=
  let '(l, es1, o) := close_locked t alive (locked p) in
  let p := mkPool (module p) l (unlocked p) (dead p) (closing p) (fresh p) in
  match o with
  | Closes =>
      let '(d, es2, o) := close_dead t alive (rev (dead p)) in
      (mkPool (module p) (locked p) (unlocked p) (rev d) (closing p) (fresh p), es ++ es1 ++ es2, o)
  | _ => (p, es ++ es1, o)
  end.
Definition close (t : thread) (alive : thread -> bool) (p : pool) : pool * list effect * outcome :=
  close_rest t alive (mkPool (module p) (locked p) [] (dead p) true (fresh p)) (map (fun q => Closed (k_dbc (snd q))) (unlocked p)).
(** after the wait, with noWait; the dead pool is looked at last *)
Definition close_again (was_dead : bool) (k : clock) (t : thread) (alive : thread -> bool) (p : pool) : pool * list effect * outcome :=
  match close_one fuel t alive true k with
  | None => (p, [], Stuck)
  | Some (es, _) =>
      if was_dead then
        let '(d, es2, o) := close_dead t alive (rev (dead p)) in
        (mkPool (module p) (locked p) (unlocked p) (rev d) (closing p) (fresh p), es ++ es2, o)
      else close_rest t alive p es
  end.

(** ** Threads *)
(** the waiters of cPoolLock, the first to wait first; [true] after notify *)
Record system := mkSystem { s_pool : pool; waiting : list (thread * phase * bool) }.
Definition start : system := mkSystem new_pool [].
Inductive action :=
| Acquire (t : thread) (open_ok : bool) (pick : nat)
| Wake (t : thread) (expired open_ok : bool) (pick : nat) (alive : thread -> bool)
| Release (t : thread) (c : conn)
| Close (t : thread) (alive : thread -> bool).
Definition waits_for (t : thread) (w : list (thread * phase * bool)) : option phase :=
  match find (fun x => fst (fst x) =? t) w with Some x => Some (snd (fst x)) | None => None end.
Definition not_waiting (t : thread) (w : list (thread * phase * bool)) : list (thread * phase * bool) :=
  filter (fun x => negb (fst (fst x) =? t)) w.
(** notify(): the first waiter not yet notified *)
Fixpoint notify (w : list (thread * phase * bool)) : list (thread * phase * bool) :=
  match w with
  | [] => []
  | (t, f, false) :: w' => (t, f, true) :: w'
  | x :: w' => x :: notify w'
  end.
Definition after (t : thread) (w : list (thread * phase * bool)) (r : pool * list effect * outcome) : system * list effect * outcome :=
  let '(p, es, o) := r in
  (mkSystem p (match o with Waits f => w ++ [(t, f, false)] | _ => w end), es, o).
(** None: the thread cannot do this now *)
Definition step (s : system) (a : action) : option (system * list effect * outcome) :=
  let w := waiting s in
  match a with
  | Acquire t open_ok pick =>
      match waits_for t w with
      | Some _ => None
      | None => Some (after t w (AcquireConnection t open_ok pick (s_pool s)))
      end
  | Wake t expired open_ok pick alive =>
      match waits_for t w with
      | None => None
      | Some (WClose d k) => Some (after t (not_waiting t w) (close_again d k t alive (s_pool s)))
      | Some f => Some (after t (not_waiting t w) (acquire_again f t expired open_ok pick (s_pool s)))
      end
  | Release t c =>
      match waits_for t w with
      | Some _ => None
      | None =>
          let '(p, n, es, o) := ReleaseConnection t c (s_pool s) in
          Some (mkSystem p (if n then notify w else w), es, o)
      end
  | Close t alive =>
      match waits_for t w with
      | Some _ => None
      | None => Some (after t w (close t alive (s_pool s)))
      end
  end.
(** A history: what was done, what the database saw, what came of it; the latest first *)
Definition event := (action * list effect * outcome)%type.
Inductive runs : list event -> system -> Prop :=
| R_start : runs [] start
| R_step h s a s' es o : runs h s -> step s a = Some (s', es, o) -> runs ((a, es, o) :: h) s'.
End Pool.
