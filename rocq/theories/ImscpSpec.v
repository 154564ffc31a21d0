(** Specifications for content packages (imscp.py) and fixwinchars.py. *)
From Verif Require Import Py Dec XmlUtils XmlSpec Imscp.

(** An XML name in ASCII (XML 1.0 production [5] restricted to ASCII, without a leading
    colon) *)
Definition xml_name (s : str) : Prop :=
  match s with
  | [] => False
  | a :: t => (letter a \/ a = 95) /\ Forall (fun c => letter c \/ is_dec c \/ In c (lit "_-.:")) t
  end.

(** The path [p] is the directory [dir] or below it: [dir/s1/.../sn] with no step upwards *)
Definition inside (dir p : str) : Prop :=
  exists segs, p = dir ++ List.concat (map (cons 47) segs) /\
    Forall (fun s => s <> lit ".." /\ ~ In 47 s) segs.

(** The characters kept in identifiers *)
Definition id_char (c : Z) : Prop := letter c \/ is_dec c \/ In c (lit "_-.:").

(** A resource that has, or for which one can suggest, a usable identifier: its own id is an
    XML name, and if it has metadata with identifiers one of them has a usable character *)
Definition fresh_id_ok (r : resource) : Prop :=
  match r_id r with Some (c :: s) => xml_name (c :: s) | _ => True end /\
  match r_lom r with
  | None => True
  | Some None => True
  | Some (Some es) => exists e c, In e es /\ In c e /\ id_char c /\ c <> 58
  end.


(** A directory path that does not end in '/' *)
Definition plain_dir (d : str) : Prop := exists d' c, d = d' ++ [c] /\ c <> 47.

(** Segments joined by '/' *)
Fixpoint slashed (segs : list str) : str :=
  match segs with
  | [] => []
  | [s] => s
  | s :: rest => s ++ 47 :: slashed rest
  end.
(** A segment of the URI that names a file or directory *)
Definition good_seg (s : str) : Prop :=
  s = lit "." \/ s = lit ".." \/
  exists t, pct_reads s t /\ t <> [] /\ t <> lit ".." /\ ~ In 47 t.

(** Windows code page 1252: Unicode code points of the octets 0x80..0x9F
    (undefined: 0x81, 0x8D, 0x8F, 0x90, 0x9D); the other octets are as in ISO-8859-1. *)
Definition cp1252_table : list (Z * Z) :=
  [(0x80,0x20AC);(0x82,0x201A);(0x83,0x0192);(0x84,0x201E);(0x85,0x2026);(0x86,0x2020);
   (0x87,0x2021);(0x88,0x02C6);(0x89,0x2030);(0x8A,0x0160);(0x8B,0x2039);(0x8C,0x0152);
   (0x8E,0x017D);(0x91,0x2018);(0x92,0x2019);(0x93,0x201C);(0x94,0x201D);(0x95,0x2022);
   (0x96,0x2013);(0x97,0x2014);(0x98,0x02DC);(0x99,0x2122);(0x9A,0x0161);(0x9B,0x203A);
   (0x9C,0x0153);(0x9E,0x017E);(0x9F,0x0178)].
Definition windows_char (c : Z) : Prop := In c (map fst cp1252_table).

Inductive hex_num : str -> Z -> Prop :=
| hn_one a x : hex_of a x -> hex_num [a] x
| hn_more ds n a x : hex_num ds n -> hex_of a x -> hex_num (ds ++ [a]) (n * 16 + x).
(** [s] is the hexadecimal character reference for the code point [n] *)
Definition hex_reference (s : str) (n : Z) : Prop :=
  exists ds, s = lit "&#x" ++ ds ++ lit ";" /\ hex_num ds n.

(** How each octet of a file may be written by the fixer *)
Inductive fixed_as (ascii : bool) (c : Z) : str -> Prop :=
| fx_same : ~ windows_char c -> (ascii = true -> c < 0x80) -> fixed_as ascii c [c]
| fx_windows n s : In (c, n) cp1252_table -> hex_reference s n -> fixed_as ascii c s
| fx_latin1 s : ascii = true -> 0x80 <= c -> ~ windows_char c -> hex_reference s c -> fixed_as ascii c s.

(** Files that are treated at all: at least four octets, not starting with a byte order
    mark or a zero octet, and starting with '<' unless forced *)
Definition treated (force : bool) (data : str) : Prop :=
  exists h0 h1 h2 h3 rest, data = h0 :: h1 :: h2 :: h3 :: rest /\
    h0 <> 0 /\ h0 <> 0xFE /\ h0 <> 0xFF /\ h0 <> 0xEF /\ h1 <> 0 /\ (force = true \/ h0 = 0x3C).
