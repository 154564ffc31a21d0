(** Model of imsbltiv1p0.py 27-124: consumers of a Basic LTI tool, their nonces, keys and file *)
From Verif Require Import Py.
Open Scope Z_scope.
Open Scope list_scope.

(** ** Nonces *)
(** imsbltiv1p0.py 32-47 CheckNonce at time [now]: the nonces kept with their times, oldest first.
    [window] is 5400 seconds, in the unit of time. *)
Section Nonces.
Variable window : Z.
Fixpoint trim (old : Z) (l : list (str * Z)) : list (str * Z) :=
  match l with
  | [] => []
  | (n, t) :: r => if t <? old then trim old r else l
  end.
Definition CheckNonce (nonce : str) (now : Z) (l : list (str * Z)) : bool * list (str * Z) :=
  let l := trim (now - window) l in
  if existsb (fun p => str_eqb (fst p) nonce) l then (true, l) else (false, l ++ [(nonce, now)]).
(** Several calls, with their results *)
Fixpoint calls (l : list (str * Z)) (cs : list (str * Z)) : list bool :=
  match cs with
  | [] => []
  | (n, t) :: r => let '(b, l1) := CheckNonce n t l in b :: calls l1 r
  end.
End Nonces.

(** ** Keys *)
(** %02X *)
Definition hex (d : Z) : Z := if d <? 10 then 48 + d else 55 + d.
Definition hex2 (b : Z) : str := [hex (b / 16); hex (b mod 16)].
(** 65: (keyLength+1)//16 groups of two bytes *)
Definition nFours (keyLength : nat) : nat := (keyLength + 1) / 16.
(** 66-70: the groups made of the bytes of os.urandom *)
Fixpoint fours (bytes : list Z) : list str :=
  match bytes with
  | a :: b :: r => (hex2 a ++ hex2 b) :: fours r
  | _ => []
  end.
(** string.join(key,'.') *)
Fixpoint join_dots (l : list str) : str :=
  match l with [] => [] | [x] => x | x :: r => x ++ 46 :: join_dots r end.
(** 59-77 GenerateKey, with what os.urandom(nFours*2) gave *)
Definition GenerateKey (bytes : list Z) : str := join_dots (fours bytes).
(** 71-76: without os.urandom, with what random.choice chose, numbers below 17 *)
Definition choice (i : nat) : Z := nth i (lit "0123456789ABCDEFG") 0.
Fixpoint groups (n : nat) (chosen : list nat) : list str :=
  match n with O => [] | S n' => map choice (firstn 4 chosen) :: groups n' (skipn 4 chosen) end.
Definition GenerateKey' (keyLength : nat) (chosen : list nat) : str := join_dots (groups (nFours keyLength) chosen).

(** ** Consumers *)
(** The dictionary of consumers, with the secret of each *)
Definition consumers := list (str * str).
Fixpoint get (k : str) (cs : consumers) : option str :=
  match cs with [] => None | (n, v) :: r => if str_eqb n k then Some v else get k r end.
Fixpoint set (k v : str) (cs : consumers) : consumers :=
  match cs with [] => [(k, v)] | (n, w) :: r => if str_eqb n k then (n, v) :: r else (n, w) :: set k v r end.
(** 79-90 NewConsumer: [generated] is the key made if none is given, [secret] the secret made;
    [None] is BLTIDuplicateKeyError *)
Definition NewConsumer (key : option str) (generated secret : str) (cs : consumers) : option (str * consumers) :=
  match key with
  | None => Some (generated, set generated secret cs)
  | Some k => match get k cs with Some _ => None | None => Some (k, set k secret cs) end
  end.

(** ** The file *)
(** str.split() of a byte string *)
Definition ws (c : Z) : bool := ((9 <=? c) && (c <=? 13)) || (c =? 32).
Fixpoint words_from (cur : str) (s : str) : list str :=
  match s with
  | [] => match cur with [] => [] | _ => [cur] end
  | c :: r => if ws c then match cur with [] => words_from [] r | _ => cur :: words_from [] r end
              else words_from (cur ++ [c]) r
  end.
Definition split (s : str) : list str := words_from [] s.
(** f.readlines() *)
Fixpoint lines_from (cur : str) (s : str) : list str :=
  match s with
  | [] => match cur with [] => [] | _ => [cur] end
  | c :: r => if c =? 10 then (cur ++ [c]) :: lines_from [] r else lines_from (cur ++ [c]) r
  end.
(** 101-116 LoadFromFile; the flag is that BLTIDuplicateKeyError was raised *)
Fixpoint load_lines (lines : list str) (cs : consumers) : consumers * bool :=
  match lines with
  | [] => (cs, false)
  | line :: r =>
      if match line with c :: _ => c =? 35 | [] => false end then load_lines r cs
      else match split line with
           | k :: v :: _ => match get k cs with Some _ => (cs, true) | None => load_lines r (set k v cs) end
           | _ => load_lines r cs
           end
  end.
Definition LoadFromFile (text : str) (cs : consumers) : consumers * bool := load_lines (lines_from [] text) cs.
(** 118-124 SaveToFile, for the keys in the order of keys.sort() *)
Definition line_of (p : str * str) : str := fst p ++ 32 :: snd p ++ [10].
Definition SaveToFile (sorted : consumers) : str := flat_map line_of sorted.
