(** Specification for the RTF tokenizer. *)
From Verif Require Import Py XmlUtils Rtf.

(** Properly nested tokens: text and empty elements, elements around nested tokens, and
    sequences of these *)
Inductive nested : list token -> Prop :=
| ns_nil : nested []
| ns_text s : nested [Text s]
| ns_empty n a : nested [Tag (mkTag n EmptyElemTag a)]
| ns_elem n a l : nested l -> nested (Tag (mkTag n STag a) :: l ++ [Tag (mkTag n ETag [])])
| ns_app l m : nested l -> nested m -> nested (l ++ m).

(** [steps input n p p']: the parser gets from p to p' by reading characters of the input,
    with at least n groups open all the way *)
Inductive steps (input : str) (n : nat) : parser -> parser -> Prop :=
| st_refl p : (n <= length (stack p))%nat -> steps input n p p
| st_step p c q r : (n <= length (stack p))%nat -> cur input (pos p) = Some c ->
    step input c p = Ok q -> steps input n q r -> steps input n p r.
