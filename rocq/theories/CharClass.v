(** Model of class CharClass, /repo/pyslet/pyslet/unicode5.py:61-467.

    A range [[a,z]] of the Python list [self.ranges] is a pair of code points.
    [M] is [sys.maxunicode] (65535 or 1114111, depending on the Python build).
    Here the ranges are values; CharClassHeap.v models the sharing of range
    objects between classes. *)
From Verif Require Import Py.

Notation range := (Z * Z)%type.
Notation cc := (list (Z * Z)).

Section CharClass.
Variable M : Z.

(** unichr: ValueError outside 0..maxunicode. *)
Definition unichr (n : Z) : result Z :=
  if (0 <=? n) && (n <=? M) then Ok n else Err ValueError.

(** unicode5.py:442-467 BisectionSearch.  The recursion is on the distance
    rmax-rmin, which the fuel bounds. *)
Fixpoint bisect_fuel (fuel : nat) (rs : cc) (c : Z) (rmin rmax : nat)
  : result (bool * nat) :=
  match fuel with
  | O => Err OutOfFuel
  | S fuel' =>
      if Nat.eqb rmin rmax then
        '(lo, hi) <- index rs rmin ;;
        if c >? hi then Ok (false, S rmin)
        else if c <? lo then Ok (false, rmin)
        else Ok (true, rmin)
      else
        let rtry := Nat.div (rmin + rmax) 2 in
        '(_, hi) <- index rs rtry ;;
        if c <=? hi then bisect_fuel fuel' rs c rmin rtry
        else bisect_fuel fuel' rs c (S rtry) rmax
  end.

(** All calls are BisectionSearch(c,0,len(self.ranges)-1). *)
Definition bisect (rs : cc) (c : Z) : result (bool * nat) :=
  bisect_fuel (S (length rs)) rs c 0 (length rs - 1).

(** unicode5.py:412-428 Merge. *)
Definition merge (rs : cc) (i : nat) : result cc :=
  '(a, z) <- index rs i ;;
  '(ia, iz) <-
     (if Nat.ltb 0 i then
        '(_, ap) <- index rs (i - 1) ;;
        Ok (if ap >=? a - 1 then (i - 1, i)%nat else (i, i))
      else if Nat.ltb i (length rs - 1) then
        '(zn, _) <- index rs (i + 1) ;;
        Ok (if zn <=? z + 1 then (i, i + 1)%nat else (i, i))
      else Ok (i, i)) ;;
  if Nat.eqb ia iz then Ok rs
  else
    '(lo, _) <- index rs ia ;;
    '(_, hi) <- index rs iz ;;
    Ok (splice rs ia (S iz) [(lo, hi)]).

(** unicode5.py:255-288 AddRange (arguments already converted to unicode). *)
Definition add_range (rs : cc) (a0 z0 : Z) : result cc :=
  let '(a, z) := if z0 <? a0 then (z0, a0) else (a0, z0) in
  match rs with
  | [] => Ok [(a, z)]
  | _ =>
      '(ma, ia) <- bisect rs a ;;
      '(mz, iz) <- bisect rs z ;;
      if ma then
        if mz then
          if Nat.eqb ia iz then Ok rs
          else
            '(lo, _) <- index rs ia ;;
            '(_, hi) <- index rs iz ;;
            merge (splice rs ia (S iz) [(lo, hi)]) ia
        else
          '(lo, _) <- index rs ia ;;
          merge (splice rs ia iz [(lo, z)]) ia
      else if mz then
        '(_, hi) <- index rs iz ;;
        merge (splice rs ia (S iz) [(a, hi)]) ia
      else merge (splice rs ia iz [(a, z)]) ia
  end.

(** unicode5.py:361-370 AddChar. *)
Definition add_char (rs : cc) (c : Z) : result cc :=
  match rs with
  | [] => Ok [(c, c)]
  | _ =>
      '(m, i) <- bisect rs c ;;
      if m then Ok rs else merge (insert_at rs i (c, c)) i
  end.

(** unicode5.py:290-359 SubtractRange. *)
Definition sub_range (rs : cc) (a0 z0 : Z) : result cc :=
  let '(a, z) := if z0 <? a0 then (z0, a0) else (a0, z0) in
  match rs with
  | [] => Ok []
  | _ =>
      '(ma, ia) <- bisect rs a ;;
      '(mz, iz) <- bisect rs z ;;
      if ma then
        if mz then
          if Nat.eqb ia iz then
            '(A, Z) <- index rs ia ;;
            if (A =? Z) || ((A =? a) && (Z =? z)) then
              Ok (splice rs ia (S ia) [])
            else if A =? a then
              z1 <- unichr (z + 1) ;; set_nth rs ia (z1, Z)
            else if Z =? z then
              a1 <- unichr (a - 1) ;; set_nth rs ia (A, a1)
            else
              a1 <- unichr (a - 1) ;;
              rs1 <- set_nth rs ia (A, a1) ;;
              z1 <- unichr (z + 1) ;;
              Ok (insert_at rs1 (S ia) (z1, Z))
          else
            '(A, Z) <- index rs ia ;;
            '(rs1, snipA) <-
              (if (A =? Z) || (a =? A) then Ok (rs, ia)
               else a1 <- unichr (a - 1) ;;
                    rs1 <- set_nth rs ia (A, a1) ;; Ok (rs1, S ia)) ;;
            '(A2, Z2) <- index rs1 iz ;;
            '(rs2, snipZ) <-
              (if (A2 =? Z2) || (z =? Z2) then Ok (rs1, S iz)
               else z1 <- unichr (z + 1) ;;
                    rs2 <- set_nth rs1 iz (z1, Z2) ;; Ok (rs2, iz)) ;;
            if Nat.leb snipA snipZ then Ok (splice rs2 snipA snipZ [])
            else Ok rs2
        else
          '(A, Z) <- index rs ia ;;
          '(rs1, snip) <-
            (if (A =? Z) || (a =? A) then Ok (rs, ia)
             else a1 <- unichr (a - 1) ;;
                  rs1 <- set_nth rs ia (A, a1) ;; Ok (rs1, S ia)) ;;
          Ok (splice rs1 snip iz [])
      else if mz then
        '(A, Z) <- index rs iz ;;
        '(rs1, snip) <-
          (if (A =? Z) || (z =? Z) then Ok (rs, S iz)
           else z1 <- unichr (z + 1) ;;
                rs1 <- set_nth rs iz (z1, Z) ;; Ok (rs1, iz)) ;;
        Ok (splice rs1 ia snip [])
      else Ok (splice rs ia iz [])
  end.

(** unicode5.py:372-389 SubtractChar. *)
Definition sub_char (rs : cc) (c : Z) : result cc :=
  match rs with
  | [] => Ok []
  | _ =>
      '(m, i) <- bisect rs c ;;
      if m then
        '(a, z) <- index rs i ;;
        if a =? z then Ok (splice rs i (S i) [])
        else if a =? c then a1 <- unichr (a + 1) ;; set_nth rs i (a1, z)
        else if z =? c then z1 <- unichr (z - 1) ;; set_nth rs i (a, z1)
        else
          c1 <- unichr (c - 1) ;;
          rs1 <- set_nth rs i (a, c1) ;;
          c2 <- unichr (c + 1) ;;
          Ok (insert_at rs1 (S i) (c2, z))
      else Ok rs
  end.

Fixpoint add_ranges (rs : cc) (l : list range) : result cc :=
  match l with
  | [] => Ok rs
  | (a, z) :: l' => rs1 <- add_range rs a z ;; add_ranges rs1 l'
  end.

Fixpoint sub_ranges (rs : cc) (l : list range) : result cc :=
  match l with
  | [] => Ok rs
  | (a, z) :: l' => rs1 <- sub_range rs a z ;; sub_ranges rs1 l'
  end.

(** unicode5.py:391-399 AddClass, for an argument other than self. *)
Definition add_class (rs c : cc) : result cc :=
  match rs with
  | [] => Ok c
  | _ => add_ranges rs c
  end.

(** unicode5.py:401-404 SubtractClass, for an argument other than self. *)
Definition sub_class (rs c : cc) : result cc := sub_ranges rs c.

(** AddClass(self) and SubtractClass(self): the [for] loop (394, 403) iterates by
    position over a list that its own body changes. *)
Fixpoint iter_self (f : cc -> Z -> Z -> result cc) (fuel : nat) (rs : cc) (i : nat)
  : result cc :=
  match fuel with
  | O => Err OutOfFuel
  | S fuel' =>
      match nth_error rs i with
      | None => Ok rs
      | Some (a, z) => rs1 <- f rs a z ;; iter_self f fuel' rs1 (S i)
      end
  end.

Definition add_self (rs : cc) : result cc :=
  match rs with
  | [] => Ok []
  | _ => iter_self add_range (S (length rs)) rs 0
  end.

Definition sub_self (rs : cc) : result cc :=
  iter_self sub_range (S (length rs)) rs 0.

(** unicode5.py:406-410 Negate; CharClass([unichr(0),unichr(maxunicode)]) is
    AddRange on an empty class (115-123). *)
Definition negate (rs : cc) : result cc :=
  lo <- unichr 0 ;; hi <- unichr M ;;
  full <- add_range [] lo hi ;;
  sub_class full rs.

(** unicode5.py:430-440 Test. *)
Definition test (rs : cc) (c : option Z) : result bool :=
  match c with
  | None => Ok false
  | Some c =>
      match rs with
      | [] => Ok false
      | _ => '(m, _) <- bisect rs c ;; Ok m
      end
  end.

(** unicode5.py:251-253 __eq__. *)
Fixpoint cc_eq (rs1 rs2 : cc) : bool :=
  match rs1, rs2 with
  | [], [] => true
  | (a, z) :: t1, (b, y) :: t2 => (a =? b) && (z =? y) && cc_eq t1 t2
  | _, _ => false
  end.

(** A history of public calls on one CharClass (starting from CharClass()).  An operand
    of AddClass/SubtractClass is itself given by a history. *)
Inductive op : Type :=
| AddRange (a z : Z)
| SubtractRange (a z : Z)
| AddChar (c : Z)
| SubtractChar (c : Z)
| AddClass (h : list op)
| SubtractClass (h : list op)
| Negate.

Fixpoint run_op (rs : cc) (o : op) {struct o} : result cc :=
  let run_all := fix run_all (rs : cc) (l : list op) {struct l} : result cc :=
    match l with
    | [] => Ok rs
    | o :: l' => rs1 <- run_op rs o ;; run_all rs1 l'
    end in
  match o with
  | AddRange a z => add_range rs a z
  | SubtractRange a z => sub_range rs a z
  | AddChar c => add_char rs c
  | SubtractChar c => sub_char rs c
  | AddClass h => c <- run_all [] h ;; add_class rs c
  | SubtractClass h => c <- run_all [] h ;; sub_class rs c
  | Negate => negate rs
  end.

Fixpoint run_ops (rs : cc) (l : list op) : result cc :=
  match l with
  | [] => Ok rs
  | o :: l' => rs1 <- run_op rs o ;; run_ops rs1 l'
  end.

(** unicode5.py:115-127 the constructor CharClass(args...) *)
Inductive ctor_arg : Type :=
| ArgString (s : str)
| ArgPair (a z : Z)
| ArgClass (c : cc).

Fixpoint add_chars (rs : cc) (s : str) : result cc :=
  match s with
  | [] => Ok rs
  | c :: s' => rs1 <- add_char rs c ;; add_chars rs1 s'
  end.

Fixpoint construct_from (rs : cc) (l : list ctor_arg) : result cc :=
  match l with
  | [] => Ok rs
  | ArgString s :: l' => rs1 <- add_chars rs s ;; construct_from rs1 l'
  | ArgPair a z :: l' => rs1 <- add_range rs a z ;; construct_from rs1 l'
  | ArgClass c :: l' => rs1 <- add_class rs c ;; construct_from rs1 l'
  end.

Definition construct (l : list ctor_arg) : result cc := construct_from [] l.

End CharClass.
