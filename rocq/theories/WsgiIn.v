(** Model of rfc5023.py 177-375: InputWrapper, which makes the input of a WSGI request look like
    a file *)
From Verif Require Import Py.
Open Scope nat_scope.
Open Scope list_scope.

(** [src] is what environ['wsgi.input'] still has to give, which goes on after the body of this
    request if the connection does.  [sched] says how much each of its next reads gives at most,
    less one; when it has run out they give all they are asked for.  [live] is
    [self.inputStream is not None], [ilen] is CONTENT_LENGTH, taken as a natural number, [buf]
    what self.buffer holds and [bpos] where it is read. *)
Record inp := mkIn { src : str; sched : list nat; live : bool; ilen : option nat; pos : nat; bpos : nat; buf : str }.
Definition with_pos (s : inp) (p b : nat) : inp := mkIn (src s) (sched s) (live s) (ilen s) p b (buf s).
Definition with_dead (s : inp) : inp := mkIn (src s) (sched s) false (ilen s) (pos s) (bpos s) (buf s).
Definition with_buf (s : inp) (b : str) : inp := mkIn (src s) (sched s) (live s) (ilen s) (pos s) (bpos s) b.
(** self.inputStream.read(n), which reads to the end if n is negative, and gives the empty
    string only if n is 0 or there is nothing left *)
Definition raw_read (n : Z) (s : inp) : str * inp :=
  let k := if (n <? 0)%Z then length (src s)
           else match sched s with [] => Z.to_nat n | j :: _ => Nat.min (S j) (Z.to_nat n) end in
  (firstn k (src s), mkIn (skipn k (src s)) (tl (sched s)) (live s) (ilen s) (pos s) (bpos s) (buf s)).
(** 207-216: filling the buffer; the fuel is the number of bytes wanted, as each turn gets one *)
Fixpoint fill (fuel seekSize : nat) (s : inp) : inp :=
  match fuel with
  | O => s
  | S f =>
      if (length (buf s) <? seekSize)%nat then
        let '(data, s1) := raw_read (Z.of_nat (seekSize - length (buf s))) s in
        match data with
        | [] => with_dead s1
        | _ => fill f seekSize (with_buf s1 (buf s1 ++ data))
        end
      else s
  end.
(** 193-217 __init__ *)
Definition Open (seekSize : nat) (contentLength : option nat) (input : str) (reads : list nat) : inp :=
  let k := match contentLength with Some l => if (l <? seekSize)%nat then l else seekSize | None => seekSize end in
  fill k k (mkIn input reads true contentLength 0 0 []).
(** 233-245: the part of read that reads from the input *)
Definition from_stream (n : nat) (s : inp) : str * inp :=
  if (0 <? n)%nat && live s then
    let m := match ilen s with
             | Some l => if (l <? pos s + n)%nat then (Z.of_nat l - Z.of_nat (pos s))%Z else Z.of_nat n
             | None => Z.of_nat n
             end in
    let '(d, s1) := raw_read m s in
    match d with
    | [] => ([], with_dead s1)
    | _ => (d, with_pos s1 (pos s1 + length d) (bpos s1))
    end
  else ([], s).
(** 219-246 read, for n that is not negative *)
Definition read (n : nat) (s : inp) : str * inp :=
  if (0 <? n)%nat && (pos s <? length (buf s))%nat then
    let d := firstn n (skipn (bpos s) (buf s)) in
    let '(e, s2) := from_stream (n - length d) (with_pos s (pos s + length d) (bpos s + length d)) in
    (d ++ e, s2)
  else from_stream n s.
(** 300-308 readall, which is read(-1); [None] is that it has not ended when the fuel is used up.
    [block] is io.DEFAULT_BUFFER_SIZE. *)
Fixpoint readall (fuel block : nat) (s : inp) : option (str * inp) :=
  match fuel with
  | O => None
  | S f =>
      let '(d, s1) := read block s in
      match d with
      | [] => Some ([], s1)
      | _ => match readall f block s1 with Some (e, s2) => Some (d ++ e, s2) | None => None end
      end
  end.
(** 319-332 readline; no limit is a negative one *)
Fixpoint readline_from (fuel : nat) (limit : option nat) (line : str) (s : inp) : option (str * inp) :=
  match fuel with
  | O => None
  | S f =>
      if match limit with None => true | Some l => (length line <? l)%nat end then
        let '(b, s1) := read 1 s in
        match b with
        | [] => Some (line, s1)
        | c :: _ => if (c =? 10)%Z then Some (line ++ b, s1) else readline_from f limit (line ++ b) s1
        end
      else Some (line, s)
  end.
Definition readline (fuel : nat) (limit : option nat) (s : inp) : option (str * inp) := readline_from fuel limit [] s.
(** 334-345 readlines with 371-375 __iter__: at the end of the input it goes on asking.  Each
    turn of either loop uses fuel; [lf] is for readline. *)
Fixpoint readlines (fuel lf : nat) (hint : option nat) (total : nat) (s : inp) : option (list str * inp) :=
  match fuel with
  | O => None
  | S f =>
      match readline lf None s with
      | None => None
      | Some ([], s1) => readlines f lf hint total s1
      | Some (line, s1) =>
          let total' := total + length line in
          if match hint with Some h => (h <? total')%nat | None => false end then Some ([line], s1)
          else match readlines f lf hint total' s1 with Some (l, s2) => Some (line :: l, s2) | None => None end
      end
  end.
(** 248-279 seek; [None] is IOError *)
Inductive whence := SeekSet | SeekCur | SeekEnd.
(** 267-277: reading what is skipped; each turn that goes on moves the position *)
Fixpoint discard (fuel block newPos : nat) (s : inp) : inp :=
  match fuel with
  | O => s
  | S f =>
      if (pos s <? newPos)%nat then
        let '(d, s1) := read (Nat.min (newPos - pos s) block) s in
        match d with
        | [] => s1
        | _ => discard f block newPos (with_pos s1 (pos s1 + length d) (bpos s1))
        end
      else s
  end.
Definition seek (block : nat) (w : whence) (offset : Z) (s : inp) : option inp :=
  if (length (buf s) <? pos s)%nat then None
  else
    match match w, ilen s with
          | SeekSet, _ => Some offset
          | SeekCur, _ => Some (Z.of_nat (pos s) + offset)%Z
          | SeekEnd, None => None
          | SeekEnd, Some l => Some (Z.of_nat l + offset)%Z
          end with
    | None => None
    | Some p =>
        if (p <? 0)%Z then None
        else
          let newPos := Z.to_nat p in
          if (newPos =? pos s)%nat then Some s
          else if (newPos <=? length (buf s))%nat then Some (with_pos s newPos newPos)
          else let s1 := discard newPos block newPos s in Some (with_pos s1 newPos (bpos s1))
    end.
(** 281-286 seekable, 356-357 tell *)
Definition seekable (s : inp) : bool := negb (length (buf s) <? pos s)%nat.
Definition tell (s : inp) : nat := pos s.
