(** Model of QTIMigration/fixwinchars.py. *)
From Verif Require Import Py.

(** fixwinchars.py 34-62 CharFixMap *)
Definition CharFixMap : list (Z * string) :=
  [(0x80, "&#x20AC;"); (0x82, "&#x201A;"); (0x83, "&#x192;"); (0x84, "&#x201E;");
   (0x85, "&#x2026;"); (0x86, "&#x2020;"); (0x87, "&#x2021;"); (0x88, "&#x2C6;");
   (0x89, "&#x2030;"); (0x8A, "&#x160;"); (0x8B, "&#x2039;"); (0x8C, "&#x152;");
   (0x8E, "&#x17D;"); (0x91, "&#x2018;"); (0x92, "&#x2019;"); (0x93, "&#x201C;");
   (0x94, "&#x201D;"); (0x95, "&#x2022;"); (0x96, "&#x2013;"); (0x97, "&#x2014;");
   (0x98, "&#x2DC;"); (0x99, "&#x2122;"); (0x9A, "&#x161;"); (0x9B, "&#x203A;");
   (0x9C, "&#x153;"); (0x9E, "&#x17E;"); (0x9F, "&#x178;")]%string.
Fixpoint fix_get (c : Z) (m : list (Z * string)) : option str :=
  match m with
  | [] => None
  | (k, v) :: m' => if c =? k then Some (lit v) else fix_get c m'
  end.

Definition hexup (n : Z) : Z := if n <? 10 then 48 + n else 65 + (n - 10).

(** fixwinchars.py 86-92: one character of the output; ["&#x%2X;"%ord(c)] for an octet of
    two hex digits *)
Definition fix_char (asciiMode : bool) (c : Z) : str :=
  let cout := match fix_get c CharFixMap with Some s => s | None => [c] end in
  if asciiMode && str_eqb cout [c] && (c >=? 0x80)
  then lit "&#x" ++ [hexup (c / 16); hexup (c mod 16)] ++ lit ";"
  else cout.

Definition needs_fix (asciiMode : bool) (c : Z) : bool :=
  ((c >=? 0x80) && (c <=? 0x9F)) || (asciiMode && (c >=? 0xA0)).

(** fixwinchars.py 64-97 FixFile: the contents of the file afterwards.  The messages are
    left out. *)
Definition FixFile (asciiMode forceMode : bool) (data : str) : str :=
  match data with
  | h0 :: h1 :: _ :: _ :: _ =>
      if mem h0 [0x00; 0xFE; 0xFF; 0xEF] || (h1 =? 0) then data
      else if negb (h0 =? 0x3C) && negb forceMode then data
      else if negb (existsb (needs_fix asciiMode) data) then data
      else List.concat (map (fix_char asciiMode) data)
  | _ => data
  end.
