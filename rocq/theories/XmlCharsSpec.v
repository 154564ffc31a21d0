(** The XML specification (1.0, fifth edition) at the level of characters:
    references, character data, attribute values, CDATA sections, names. *)
From Verif Require Import Py.

(** ** References (productions [66], [68], section 4.6) *)
Definition hex_digit (c : Z) : Prop := 48 <= c <= 57 \/ 65 <= c <= 70 \/ 97 <= c <= 102.
Definition hex_of_digit (c : Z) : Z :=
  if c <=? 57 then c - 48 else if c <=? 70 then c - 55 else c - 87.
Definition hex_number (s : str) : Z := fold_left (fun v c => v * 16 + hex_of_digit c) s 0.
Definition dec_digit (c : Z) : Prop := 48 <= c <= 57.
Definition dec_number (s : str) : Z := fold_left (fun v c => v * 10 + (c - 48)) s 0.

Inductive reference : str -> Z -> Prop :=
| ref_amp : reference (lit "&amp;") 38
| ref_lt : reference (lit "&lt;") 60
| ref_gt : reference (lit "&gt;") 62
| ref_apos : reference (lit "&apos;") 39
| ref_quot : reference (lit "&quot;") 34
| ref_hex ds : ds <> [] -> Forall hex_digit ds ->
    reference (lit "&#x" ++ ds ++ lit ";") (hex_number ds)
| ref_dec ds : ds <> [] -> Forall dec_digit ds ->
    reference (lit "&#" ++ ds ++ lit ";") (dec_number ds).

(** Character data between tags (production [14], section 2.11): [reads_text s t]
    says that the markup [s] contains no tags and stands for the text [t].  A
    carriage return in the markup would be taken for a line end. *)
Inductive reads_text : str -> str -> Prop :=
| text_nil : reads_text [] []
| text_char c s t : c <> 38 -> c <> 60 -> c <> 13 ->
    reads_text s t -> reads_text (c :: s) (c :: t)
| text_ref r c s t : reference r c -> reads_text s t -> reads_text (r ++ s) (c :: t).

(** The inside of an attribute value (production [10], section 3.3.3): white space
    stands for a space. *)
Definition xml_space (c : Z) : Prop := c = 32 \/ c = 9 \/ c = 10 \/ c = 13.
Inductive reads_att (q : Z) : str -> str -> Prop :=
| att_nil : reads_att q [] []
| att_char c s t : c <> 38 -> c <> 60 -> c <> q -> ~ xml_space c ->
    reads_att q s t -> reads_att q (c :: s) (c :: t)
| att_space c s t : xml_space c -> reads_att q s t -> reads_att q (c :: s) (32 :: t)
| att_ref r c s t : reference r c -> reads_att q s t -> reads_att q (r ++ s) (c :: t).

(** A quoted attribute value. *)
Definition reads_literal (s t : str) : Prop :=
  exists q s', (q = 34 \/ q = 39) /\ s = [q] ++ s' ++ [q] /\ reads_att q s' t.

(** CDATA sections with the given opening delimiter mixed with character data:
    the correct one is "<![CDATA[" (production [19]). *)
Inductive reads_cdata (open : str) : str -> str -> Prop :=
| cdata_end : reads_cdata open [] []
| cdata_sect d s t : (forall x y, d <> x ++ lit "]]>" ++ y) ->
    reads_cdata open s t -> reads_cdata open (open ++ d ++ lit "]]>" ++ s) (d ++ t)
| cdata_char c s t : c <> 38 -> c <> 60 -> c <> 13 ->
    reads_cdata open s t -> reads_cdata open (c :: s) (c :: t)
| cdata_ref r c s t : reference r c -> reads_cdata open s t ->
    reads_cdata open (r ++ s) (c :: t).

(** ** Characters and names (productions [2]-[5], [13]) *)
Definition char (c : Z) : Prop :=
  c = 0x9 \/ c = 0xA \/ c = 0xD \/ 0x20 <= c <= 0xD7FF \/ 0xE000 <= c <= 0xFFFD \/
  0x10000 <= c <= 0x10FFFF.

Definition name_start_char (c : Z) : Prop :=
  c = 58 \/ 65 <= c <= 90 \/ c = 95 \/ 97 <= c <= 122 \/ 0xC0 <= c <= 0xD6 \/
  0xD8 <= c <= 0xF6 \/ 0xF8 <= c <= 0x2FF \/ 0x370 <= c <= 0x37D \/
  0x37F <= c <= 0x1FFF \/ 0x200C <= c <= 0x200D \/ 0x2070 <= c <= 0x218F \/
  0x2C00 <= c <= 0x2FEF \/ 0x3001 <= c <= 0xD7FF \/ 0xF900 <= c <= 0xFDCF \/
  0xFDF0 <= c <= 0xFFFD \/ 0x10000 <= c <= 0xEFFFF.

Definition name_char (c : Z) : Prop :=
  name_start_char c \/ c = 45 \/ c = 46 \/ 48 <= c <= 57 \/ c = 0xB7 \/
  0x0300 <= c <= 0x036F \/ 0x203F <= c <= 0x2040.

Definition pubid_char (c : Z) : Prop :=
  c = 0x20 \/ c = 0xD \/ c = 0xA \/ 97 <= c <= 122 \/ 65 <= c <= 90 \/ 48 <= c <= 57 \/
  In c (lit "-'()+,./:=?;!*#@$_%").

(** The basic multilingual plane: the code units of a narrow Python build. *)
Definition bmp (c : Z) : Prop := c <= 0xFFFF.

Definition name (s : str) : Prop :=
  exists c rest, s = c :: rest /\ name_start_char c /\ Forall name_char rest.

(** NCName of "Namespaces in XML" (production [4]): a name without colon. *)
Definition nc_name (s : str) : Prop := name s /\ ~ In 58 s.

(** ** White space *)
(** The words of a text: the maximal runs of characters that are not space. *)
Fixpoint words_loop (space : Z -> bool) (cur s : str) : list str :=
  match s with
  | [] => match cur with [] => [] | _ => [rev cur] end
  | c :: s' =>
      if space c then
        match cur with [] => words_loop space [] s' | _ => rev cur :: words_loop space [] s' end
      else words_loop space (c :: cur) s'
  end.
Definition words (space : Z -> bool) (s : str) : list str := words_loop space [] s.

Fixpoint spaced (l : list str) : str :=
  match l with
  | [] => []
  | [w] => w
  | w :: l' => w ++ 32 :: spaced l'
  end.
