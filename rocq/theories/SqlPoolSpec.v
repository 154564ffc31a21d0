(** What threads hold and what is open, from a history alone. *)
From Coq Require Import List Arith Bool ZArith.
From Verif Require Import SqlPool.
Import ListNotations.

(** A history has its latest event first *)
Definition same (x y : thread * conn) : bool := (fst x =? fst y) && (snd x =? snd y).
Fixpoint remove_one (x : thread * conn) (l : list (thread * conn)) : list (thread * conn) :=
  match l with [] => [] | y :: l' => if same x y then l' else y :: remove_one x l' end.
(** The connections threads have acquired and not yet released, as often as they acquired them *)
Fixpoint holding (h : list event) : list (thread * conn) :=
  match h with
  | [] => []
  | (Acquire t _ _, _, Got c) :: h' | (Wake t _ _ _ _, _, Got c) :: h' => (t, c) :: holding h'
  | (Release t c, _, _) :: h' => remove_one (t, c) (holding h')
  | _ :: h' => holding h'
  end.
Definition holds (h : list event) (t : thread) (c : conn) : Prop := In (t, c) (holding h).
(** The threads that hold a connection *)
Definition holders (h : list event) : list thread := nodup Nat.eq_dec (map fst (holding h)).

(** The open connections with the threads that opened them *)
Definition open_after (es : list effect) (o : list (conn * thread)) : list (conn * thread) :=
  fold_left (fun o e => match e with
                        | Opened c t => (c, t) :: o
                        | Closed c => filter (fun p => negb (fst p =? c)) o
                        | Broken _ => o
                        end) es o.
Fixpoint open_now (h : list event) : list (conn * thread) :=
  match h with [] => [] | (_, es, _) :: h' => open_after es (open_now h') end.
Definition is_open (h : list event) (c : conn) : Prop := In c (map fst (open_now h)).

(** Histories before the container is closed; in which connections can be opened *)
Definition not_closed (h : list event) : Prop := forall t alive es o, ~ In (Close t alive, es, o) h.
Definition opens (a : action) : Prop :=
  match a with Acquire _ ok _ | Wake _ _ ok _ _ => ok = true | _ => True end.
Definition database_up (h : list event) : Prop := forall a es o, In (a, es, o) h -> opens a.

(** The threads that wait for a connection, those that were notified *)
Definition notified (w : list (thread * phase * bool)) : nat := length (filter snd w).
