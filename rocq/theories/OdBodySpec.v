(** Texts in UTF-16 and UTF-32 *)
From Verif Require Import Py.
Open Scope Z_scope.
Open Scope list_scope.

Definition unit16 (big : bool) (u : Z) : str := if big then [u / 256; u mod 256] else [u mod 256; u / 256].
Definition utf16_1 (big : bool) (c : Z) : str :=
  if c <? 0x10000 then unit16 big c
  else unit16 big (0xD800 + (c - 0x10000) / 0x400) ++ unit16 big (0xDC00 + (c - 0x10000) mod 0x400).
Definition utf16 (big : bool) (s : str) : str := flat_map (utf16_1 big) s.
Definition utf32_1 (big : bool) (c : Z) : str :=
  let l := [c / 0x1000000; (c / 0x10000) mod 256; (c / 256) mod 256; c mod 256] in if big then l else rev l.
Definition utf32 (big : bool) (s : str) : str := flat_map (utf32_1 big) s.
Definition bom : Z := 0xFEFF.
Definition ascii (c : Z) : Prop := 0 < c < 128.
