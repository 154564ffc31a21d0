(** Model of QTIMigration/lib/rtfutils.py: the RTF tokenizer.

    Input is a byte string: [isalpha] and [isdigit] are those of ASCII.  Messages printed
    are left out. *)
From Verif Require Import Py Dec XmlUtils.

(** rtfutils.py 34-61 RTFState.  [uc] may be None (control word \uc without a number);
    bold and italic are used only as truth values. *)
Record rstate := mkRState { uc : option Z; ignoreGroup : bool; bold : bool; italic : bool; size : Z }.
Definition new_rstate : rstate := mkRState (Some 1) false false false 0.
(** rtfutils.py 40-44 Clone *)
Definition Clone (s : rstate) : rstate := mkRState (uc s) (ignoreGroup s) false false 0.
(** rtfutils.py 46-49 ResetFormatting *)
Definition ResetFormatting (s : rstate) : rstate := mkRState (uc s) (ignoreGroup s) false false 0.
(** rtfutils.py 51-61 GetFormatTags *)
Definition GetFormatTags (s : rstate) : list str :=
  (if bold s then [lit "b"] else []) ++ (if italic s then [lit "i"] else []) ++
  (if size s >? 0 then [lit "big"] else if size s <? 0 then [lit "small"] else []).

(** rtfutils.py 85-96 RTFParser without the input *)
Record parser := mkParser {
  tokens : list token;
  chars : str;
  formatTags : list str;
  state : rstate;
  stack : list rstate;     (* top first *)
  popen : bool;
  pos : Z
}.

(** rtfutils.py 293-295 Consume: [input[pos:pos+1]] with Python's rule for negative
    positions *)
Definition cur (input : str) (pos : Z) : option Z :=
  if 0 <=? pos then nth_error input (Z.to_nat pos)
  else if (pos <=? -2) && (- pos <=? Z.of_nat (length input))
  then nth_error input (Z.to_nat (Z.of_nat (length input) + pos))
  else None.

Definition move (n : Z) (p : parser) : parser :=
  mkParser (tokens p) (chars p) (formatTags p) (state p) (stack p) (popen p) (pos p + n).
Definition set_state (s : rstate) (p : parser) : parser :=
  mkParser (tokens p) (chars p) (formatTags p) s (stack p) (popen p) (pos p).
Definition set_stack (k : list rstate) (p : parser) : parser :=
  mkParser (tokens p) (chars p) (formatTags p) (state p) k (popen p) (pos p).
Definition add_char (c : Z) (p : parser) : parser :=
  mkParser (tokens p) (chars p ++ [c]) (formatTags p) (state p) (stack p) (popen p) (pos p).
Definition emit (l : list token) (p : parser) : parser :=
  mkParser (tokens p ++ l) (chars p) (formatTags p) (state p) (stack p) (popen p) (pos p).
Definition set_tags (l : list str) (p : parser) : parser :=
  mkParser (tokens p) (chars p) l (state p) (stack p) (popen p) (pos p).
Definition set_popen (p : parser) : parser :=
  mkParser (tokens p) (chars p) (formatTags p) (state p) (stack p) true (pos p).

Definition start_tag (n : str) : token := Tag (mkTag n STag []).
Definition end_tag (n : str) : token := Tag (mkTag n ETag []).

(** rtfutils.py 281-291 EndString; the list of tags is reversed in place *)
Definition EndString (p : parser) : parser :=
  match chars p with
  | [] => p
  | cs =>
      mkParser (tokens p ++ map start_tag (formatTags p) ++ [Text cs] ++ map end_tag (rev (formatTags p)))
               [] (rev (formatTags p)) (state p) (stack p) (popen p) (pos p)
  end.

Fixpoint tags_eqb (a b : list str) : bool :=
  match a, b with
  | [], [] => true
  | x :: a', y :: b' => str_eqb x y && tags_eqb a' b'
  | _, _ => false
  end.
(** rtfutils.py 275-279 StateChanged *)
Definition StateChanged (p : parser) : parser :=
  let newFormat := GetFormatTags (state p) in
  if tags_eqb newFormat (formatTags p) then p else set_tags newFormat (EndString p).

(** rtfutils.py 105-186 Handle_*, chosen by the name of the control word *)
Definition truth (param : option Z) : bool := match param with None => true | Some n => negb (n =? 0) end.
Definition Handle (name : str) (param : option Z) (p : parser) : result parser :=
  let s := state p in
  if str_eqb name (lit "uc") then
    Ok (set_state (mkRState param (ignoreGroup s) (bold s) (italic s) (size s)) p)
  else if str_eqb name (lit "u") then
    if ignoreGroup s then Ok p
    else match param with
         | None => Err TypeError
         | Some n =>
             c <- unichr n ;;
             match uc s with
             | None => Err TypeError
             | Some k => Ok (move k (add_char c p))
             end
         end
  else if str_eqb name (lit "fonttbl") then
    Ok (set_state (mkRState (uc s) true (bold s) (italic s) (size s)) p)
  else if str_eqb name (lit "plain") then Ok (StateChanged (set_state (ResetFormatting s) p))
  else if str_eqb name (lit "par") then
    let p := EndString p in
    Ok (set_popen (emit ((if popen p then [end_tag (lit "p")] else []) ++ [start_tag (lit "p")]) p))
  else if str_eqb name (lit "line") then
    Ok (emit [Tag (mkTag (lit "br") EmptyElemTag [])] (EndString p))
  else if str_eqb name (lit "tab") then Ok (add_char 9 p)
  else if str_eqb name (lit "lquote") then Ok (add_char 0x2018 p)
  else if str_eqb name (lit "rquote") then Ok (add_char 0x2019 p)
  else if str_eqb name (lit "ldblquote") then Ok (add_char 0x201C p)
  else if str_eqb name (lit "rdblquote") then Ok (add_char 0x201D p)
  else if str_eqb name (lit "b") then
    Ok (StateChanged (set_state (mkRState (uc s) (ignoreGroup s) (truth param) (italic s) (size s)) p))
  else if str_eqb name (lit "i") then
    Ok (StateChanged (set_state (mkRState (uc s) (ignoreGroup s) (bold s) (truth param) (size s)) p))
  else if str_eqb name (lit "fs") then
    let sz := match param with
              | None => -1
              | Some n => if n <? 22 then -1 else if n >? 26 then 1 else 0
              end in
    Ok (StateChanged (set_state (mkRState (uc s) (ignoreGroup s) (bold s) (italic s) sz) p))
  else if str_eqb name (lit "lang") then
    match param with None => Err TypeError | Some _ => Ok p end
  else (* fcharset, pard, f and unknown words have no effect *) Ok p.

(** rtfutils.py 238-248 ParseLetterSequence and the digits of 250-266 ParseNumber: the
    longest run of characters satisfying f, and the position after it *)
Fixpoint take_while (f : Z -> bool) (fuel : nat) (input : str) (pos : Z) : result (str * Z) :=
  match fuel with
  | O => Err OutOfFuel
  | S n =>
      match cur input pos with
      | Some c => if f c
                  then '(w, q) <- take_while f n input (pos + 1) ;; Ok (c :: w, q)
                  else Ok ([], pos)
      | None => Ok ([], pos)
      end
  end.
Definition run_fuel (input : str) : nat := S (length input + length input).

(** rtfutils.py 250-266 ParseNumber *)
Definition ParseNumber (input : str) (pos : Z) : result (Z * Z) :=
  let '(value, pos) := match cur input pos with
                       | Some c => if c =? 45 then (-1, pos + 1) else (1, pos)
                       | None => (1, pos)
                       end in
  '(num, pos) <- take_while is_digit (run_fuel input) input pos ;;
  match num with
  | [] => Err RTFException
  | _ => Ok (value * dval num, pos)
  end.

Definition cur_is (input : str) (pos : Z) (c : Z) : bool :=
  match cur input pos with Some d => d =? c | None => false end.

(** rtfutils.py 225-236 ParseControlWord *)
Definition ParseControlWord (input : str) (pos : Z) : result (str * option Z * Z) :=
  '(name, pos) <- take_while is_letter (run_fuel input) input pos ;;
  match cur input pos with
  | Some c =>
      if c =? 32 then Ok (name, None, pos + 1)
      else if is_digit c || (c =? 45) then
        '(param, pos) <- ParseNumber input pos ;;
        Ok (name, Some param, if cur_is input pos 32 then pos + 1 else pos)
      else Ok (name, None, pos)
  | None => Ok (name, None, pos)
  end.

(** rtfutils.py 193-218: one turn of the loop of TokenizeString, at the character c.  After
    a final backslash [ord('')] raises TypeError. *)
Definition set_pos (q : Z) (p : parser) : parser :=
  mkParser (tokens p) (chars p) (formatTags p) (state p) (stack p) (popen p) q.
Definition step (input : str) (c : Z) (p : parser) : result parser :=
  if c =? 92 then
    let p := move 1 p in
    match cur input (pos p) with
    | None => Err TypeError
    | Some d =>
        if is_letter d then
          '(name, param, q) <- ParseControlWord input (pos p) ;;
          Handle name param (set_pos q p)
        else Ok (move 1 p)
    end
  else if c =? 123 then
    let p := move 1 p in
    Ok (set_state (Clone (state p)) (set_stack (state p :: stack p) p))
  else if c =? 125 then
    let p := move 1 p in
    match stack p with
    | s :: k => Ok (StateChanged (set_state s (set_stack k p)))
    | [] => Err RTFException
    end
  else Ok (move 1 (if ignoreGroup (state p) then p else add_char c p)).

Fixpoint loop (fuel : nat) (input : str) (p : parser) : result parser :=
  match fuel with
  | O => Err OutOfFuel
  | S n =>
      match cur input (pos p) with
      | None => Ok p
      | Some c => p' <- step input c p ;; loop n input p'
      end
  end.

(** rtfutils.py 188-223 TokenizeString, in a given number of turns of its loop *)
Definition new_parser : parser := mkParser [] [] [] new_rstate [] false 0.
Definition RtfTokenize (fuel : nat) (input : str) : result (list token) :=
  p <- loop fuel input new_parser ;;
  let p := EndString p in
  Ok (tokens p ++ if popen p then [end_tag (lit "p")] else []).
