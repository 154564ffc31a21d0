(** Model of how the body of a request is taken: unicode5.py 20-58 (MagicTable, DetectEncoding) and
    odata2/server.py 689-743 (ReadXMLOrJSON) up to the call of the parser.

    Simplifications.
    - What the Content-Type says, by AtomRanges and JSONRanges, is a parameter.
    - The input can be read again from its start (C252, C253 are about the input).
    - Reading from a body that is no UTF-8 needs codecs, which server.py does not import: NameError. *)
From Verif Require Import Py Uri OdUri.
Open Scope Z_scope.
Open Scope list_scope.

Inductive encoding := Utf32Be | Utf32Le | Utf32 | Utf16Be | Utf16Le | Utf8 | Utf8Sig | Latin1 | Named (name : str).
(** unicode5.py 20-34; 0x2a stands for any other octet *)
Definition MagicTable : list (str * encoding) :=
  [([0x00; 0x00; 0xfe; 0xff], Utf32Be); ([0xff; 0xfe; 0x00; 0x00], Utf32Le); ([0x00; 0x00; 0xff; 0xfe], Utf32);
   ([0xfe; 0xff; 0x00; 0x00], Utf32); ([0xfe; 0xff; 0x2a; 0x2a], Utf16Be); ([0xff; 0xfe; 0x2a; 0x2a], Utf16Le);
   ([0x00; 0x00; 0x00; 0x2a], Utf32Be); ([0x2a; 0x00; 0x00; 0x00], Utf32Le); ([0x00; 0x00; 0x2a; 0x00], Utf32Le);
   ([0x00; 0x2a; 0x00; 0x00], Utf32Le); ([0x00; 0x2a; 0x00; 0x2a], Utf16Be); ([0x2a; 0x00; 0x2a; 0x00], Utf16Le);
   ([0x2a; 0x2a; 0x2a; 0x2a], Utf8)].
(** unicode5.py 44-53 *)
Definition keeper (b : Z) : bool := (b =? 0) || (b =? 0xfe) || (b =? 0xff).
Definition key_at (magic : str) (i : nat) : Z :=
  match nth_error magic i with Some b => if keeper b then b else 0x2a | None => 0x2a end.
Definition key_of (magic : str) : str := map (key_at magic) (seq 0 4).
Definition look (key : str) : option encoding :=
  option_map snd (find (fun e => str_eqb (fst e) key) MagicTable).
(** unicode5.py 36-58 *)
Definition DetectEncoding (magic : str) : option encoding :=
  if str_eqb (firstn 3 magic) [0xef; 0xbb; 0xbf] then Some Utf8Sig else look (key_of magic).

(** input.readline(4) *)
Fixpoint line (n : nat) (s : str) : str :=
  match n, s with
  | S m, c :: r => if c =? 10 then [c] else c :: line m r
  | _, _ => []
  end.
Inductive kind := Xml | Json.
Inductive taken := Parsed (k : kind) (e : encoding) | Refused.
(** encoding.lower() in ("utf_8","utf-8") *)
Definition is_utf8 (e : encoding) : bool :=
  match e with
  | Utf8 => true
  | Named n => str_eqb (lower n) (lit "utf_8") || str_eqb (lower n) (lit "utf-8")
  | _ => false
  end.
(** server.py 719-730: an empty string is in every string *)
Fixpoint sniff (s : str) : option kind :=
  match s with
  | [] => Some Json
  | b :: r =>
      if b <? 0x20 then sniff r
      else if b =? 60 then Some Xml
      else if (b =? 123) || (b =? 91) then Some Json
      else None
  end.
(** server.py 689-743 *)
Definition ReadXMLOrJSON (said : option kind) (charset : option str) (body : str) : taken :=
  let e := match charset with
           | Some n => Named n
           | None => match DetectEncoding (line 4 body) with Some e => e | None => Latin1 end
           end in
  match said with
  | Some Xml => Parsed Xml e
  | Some Json => if is_utf8 e then Parsed Json e else Refused
  | None =>
      if is_utf8 e then match sniff body with Some k => Parsed k e | None => Refused end
      else Refused
  end.
