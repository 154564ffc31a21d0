(** What an XML content model means, independently of particle maps: the
    element children it allows, as in section 3.2 of the XML specification. *)
From Verif Require Import Py ContentModel.

(** [repeats L w]: [w] is the concatenation of any number of members of [L]. *)
Inductive repeats {A} (L : list A -> Prop) : list A -> Prop :=
| repeats_none : repeats L []
| repeats_more w1 w2 : L w1 -> repeats L w2 -> repeats L (w1 ++ w2).

(** The meaning of "?", "*" and "+". *)
Definition occurs {A} (o : occ) (L : list A -> Prop) (w : list A) : Prop :=
  match o with
  | Once => L w
  | ZeroOrOne => w = [] \/ L w
  | ZeroOrMore => repeats L w
  | OneOrMore => exists w1 w2, w = w1 ++ w2 /\ L w1 /\ repeats L w2
  end.

(** The words a content particle allows, when the letter for a name particle is
    made from the particle and its name. *)
Fixpoint words {A} (letter : nat -> str -> A) (p : cp) : list A -> Prop :=
  match p with
  | PName o i n => occurs o (fun w => w = [letter i n])
  | PChoice o children =>
      occurs o ((fix any l w := match l with
                                | [] => False
                                | c :: l' => words letter c w \/ any l' w
                                end) children)
  | PSeq o children =>
      occurs o ((fix all l w := match l with
                                | [] => w = []
                                | c :: l' => exists w1 w2, w = w1 ++ w2 /\
                                               words letter c w1 /\ all l' w2
                                end) children)
  end.

(** The sequences of child element names a content particle allows. *)
Definition allows (p : cp) : list str -> Prop := words (fun _ n => n) p.

(** The same sequences with every name marked by the particle it is matched
    with. *)
Definition marked (p : cp) : list (str * nat) -> Prop := words (fun i n => (n, i)) p.

(** The names, and the name particles, in a content particle. *)
Fixpoint names (p : cp) : list str :=
  match p with
  | PName _ _ n => [n]
  | PChoice _ l | PSeq _ l => flat_map names l
  end.
Fixpoint ids (p : cp) : list nat :=
  match p with
  | PName _ i _ => [i]
  | PChoice _ l | PSeq _ l => flat_map ids l
  end.

(** What the parser builds: every name particle is a new object, every name is
    a proper name. *)
Definition parsed (p : cp) : Prop :=
  NoDup (ids p) /\ ~ In [] (names p).

(** A choice or a sequence has at least one member (productions [49], [50]). *)
Fixpoint inhabited (p : cp) : Prop :=
  match p with
  | PName _ _ _ => True
  | PChoice _ l | PSeq _ l =>
      l <> [] /\ (fix all l := match l with
                              | [] => True
                              | c :: l' => inhabited c /\ all l'
                              end) l
  end.

(** A content model is always a group (productions [46], [47], [51]). *)
Definition is_group (p : cp) : Prop :=
  match p with PName _ _ _ => False | _ => True end.

(** Mixed content lists element names only (production [51], section 3.2.2): the
    content model is a repeatable choice of plain names. *)
Definition mixed_model (l : list (nat * str)) : cp :=
  PChoice ZeroOrMore (map (fun x => PName Once (fst x) (snd x)) l).

(** The content specifications the parser builds. *)
Definition parsed_content (c : content) : Prop :=
  match c with
  | Mixed p | ElementContent p => parsed p
  | _ => True
  end.

(** The sequences of child element names a content specification allows.  For
    mixed content character data can stand between the children, and the model
    is repeatable. *)
Definition valid_children (c : content) (w : list str) : Prop :=
  match c with
  | Empty | SGMLCDATA => w = []
  | AnyContent => ~ In [] w
  | Mixed p => repeats (allows p) w
  | ElementContent p => allows p w
  end.

(** The same with the children marked by the particles they are matched with. *)
Definition marked_children (c : content) (w : list (str * nat)) : Prop :=
  match c with
  | Mixed p => repeats (marked p) w
  | ElementContent p => marked p w
  | _ => False
  end.

(** Section 3.2.1 and appendix E of the XML specification: a content model is
    ambiguous if, after some children, one and the same element name can match
    two different occurrences of that name in the model. *)
Definition ambiguous (c : content) : Prop :=
  exists u n i j v v', i <> j /\
    marked_children c (u ++ (n, i) :: v) /\ marked_children c (u ++ (n, j) :: v').

(** Feeding names to a cursor, one after the other, while it accepts them. *)
Fixpoint feed (e : element_type) (c : cursor) (w : list str) : option cursor :=
  match w with
  | [] => Some c
  | n :: w' => match Next e c n with
               | (c', true) => feed e c' w'
               | (_, false) => None
               end
  end.

(** The children [w] and then the end tag are all accepted. *)
Definition accepts (e : element_type) (w : list str) : Prop :=
  exists c, feed e StartState w = Some c /\ snd (Next e c []) = true.
