(** Model of TestForm: selection and ordering of the parts of a QTI test.
    /repo/pyslet/pyslet/qtiv2/tests.py 461-631 *)
From Verif Require Import Py.
Open Scope Z_scope.

(** ** Sections and item references: tests.py 229-455

    The attributes that selection and ordering use.  [sel] is the selection rule, if any:
    the number to select and withReplacement (229-254); [shuffle] is that of the ordering
    rule, false if there is none (257-280). *)
Inductive part :=
| Item (id : str) (required fixed : bool)
| Sect (id : str) (required fixed visible keepTogether : bool)
       (sel : option (Z * bool)) (shuffle : bool) (children : list part).

Definition ident (p : part) : str := match p with Item i _ _ => i | Sect i _ _ _ _ _ _ _ => i end.
Definition required (p : part) : bool :=
  match p with Item _ r _ => r | Sect _ r _ _ _ _ _ _ => r end.
Definition fixed (p : part) : bool :=
  match p with Item _ _ f => f | Sect _ _ f _ _ _ _ _ => f end.
Definition is_section (p : part) : bool := match p with Item _ _ _ => false | _ => true end.
(** [invisibleSection and not child.keepTogether]: tests.py 556, 560 *)
Definition split (p : part) : bool :=
  match p with Item _ _ _ => false | Sect _ _ _ v k _ _ _ => negb v && negb k end.

(** [u"-"+id] *)
Definition close (id : str) : str := 45 :: id.

(** ** Random choices

    The outcomes of the calls to the random module are a list of numbers; when it runs
    out, zero.  [random.choice] takes the next number modulo the length. *)
Definition draw (n : nat) (rs : list nat) : nat * list nat :=
  match rs with
  | [] => (O, [])
  | r :: rs' => (Nat.modulo r n, rs')
  end.

(** [l.remove(x)] *)
Fixpoint remove1 (x : nat) (l : list nat) : list nat :=
  match l with
  | [] => []
  | y :: l' => if Nat.eqb x y then l' else y :: remove1 x l'
  end.

Fixpoint remove_at {A} (n : nat) (l : list A) : list A :=
  match l, n with
  | [], _ => []
  | _ :: l', O => l'
  | x :: l', S n' => x :: remove_at n' l'
  end.

(** random.shuffle: the elements are drawn one after the other.  The library uses another
    algorithm; both can give every permutation. *)
Fixpoint shuffle_loop {A} (fuel : nat) (l : list A) (rs : list nat) : list A * list nat :=
  match fuel with
  | O => (l, rs)
  | S f =>
      match l with
      | [] => ([], rs)
      | _ =>
          let '(i, rs) := draw (length l) rs in
          match nth_error l i with
          | None => (l, rs)
          | Some x => let '(l', rs) := shuffle_loop f (remove_at i l) rs in (x :: l', rs)
          end
      end
  end.
Definition random_shuffle {A} (l : list A) (rs : list nat) : list A * list nat :=
  shuffle_loop (length l) l rs.

(** [selection.sort()] *)
Fixpoint insert (x : nat) (l : list nat) : list nat :=
  match l with
  | [] => [x]
  | y :: l' => if Nat.leb x y then x :: l else y :: insert x l'
  end.
Definition sort_nat (l : list nat) : list nat := fold_right insert [] l.

(** ** TestForm.Select: tests.py 505-615 *)

(** Step 1: tests.py 526-530 *)
Fixpoint step1 (withReplacement : bool) (i : nat) (children : list part)
    (selection bag : list nat) : list nat * list nat :=
  match children with
  | [] => (selection, bag)
  | c :: cs =>
      if required c
      then step1 withReplacement (S i) cs (selection ++ [i])
             (if withReplacement then bag else remove1 i bag)
      else step1 withReplacement (S i) cs selection bag
  end.

(** Step 2: tests.py 534-541.  [n] is the number of rounds still to go. *)
Fixpoint step2 (n : nat) (withReplacement : bool) (selection bag : list nat) (rs : list nat)
    : result (list nat * list nat) :=
  match n with
  | O => Ok (selection, rs)
  | S n' =>
      match bag with
      | [] => Err SelectionError
      | _ =>
          let '(k, rs) := draw (length bag) rs in
          i <- index bag k ;;
          step2 n' withReplacement (selection ++ [i])
            (if withReplacement then bag else remove1 i bag) rs
      end
  end.

(** Step 1 and 2 and the sort: tests.py 516-545 *)
Definition choose (sel : option (Z * bool)) (children : list part) (rs : list nat)
    : result (list nat * list nat) :=
  let '(targetSize, withReplacement) :=
    match sel with Some x => x | None => (Z.of_nat (length children), false) end in
  let '(selection, bag) := step1 withReplacement 0 children [] (seq 0 (length children)) in
  if Z.of_nat (length selection) >? targetSize then Err SelectionError
  else
    '(selection, rs) <- step2 (Z.to_nat (targetSize - Z.of_nat (length selection)))
                              withReplacement selection bag rs ;;
    Ok (sort_nat selection, rs).

Section Select.

(** AssessmentTest.GetPart on section parts: tests.py 73-84; None for KeyError. *)
Variable parts : str -> option part.

Definition form_ := list (option str).
Definition selector := bool -> list nat -> result (form_ * list nat).

(** The loop over the grand-children: tests.py 564-568 *)
Fixpoint mix_in (gs : form_) (shuffleList : list str) : result (list str) :=
  match gs with
  | [] => Ok shuffleList
  | None :: _ => Err KeyError
  | Some g :: gs' =>
      match parts g with
      | None => Err KeyError
      | Some c => if fixed c then Err SelectionError else mix_in gs' (shuffleList ++ [g])
      end
  end.

(** Step 4: tests.py 549-579.  [subs] are the calls of Select on the children. *)
Fixpoint step4 (shuffle expand : bool) (children : list part) (subs : list selector)
    (selection : list nat) (new : form_) (shuffleList : list str) (rs : list nat)
    : result (form_ * list str * list nat) :=
  match selection with
  | [] => Ok (new, shuffleList, rs)
  | i :: selection' =>
      child <- index children i ;;
      sub <- index subs i ;;
      if shuffle && negb (fixed child) then
        if split child then
          '(gs, rs) <- sub false rs ;;
          shuffleList <- mix_in gs shuffleList ;;
          step4 shuffle expand children subs selection' (new ++ [None]) shuffleList rs
        else
          step4 shuffle expand children subs selection' (new ++ [None])
            (shuffleList ++ [ident child]) rs
      else if is_section child && expand then
        '(l, rs) <- sub true rs ;;
        step4 shuffle expand children subs selection'
          ((new ++ [Some (ident child)]) ++ l ++ [Some (close (ident child))]) shuffleList rs
      else
        step4 shuffle expand children subs selection' (new ++ [Some (ident child)])
          shuffleList rs
  end.

(** One bucket per slot: tests.py 593-597.  What is left of the list is returned. *)
Fixpoint fill_buckets (selection : form_) (l : list str) : result (list (list str) * list str) :=
  match selection with
  | [] => Ok ([], l)
  | Some _ :: s' => fill_buckets s' l
  | None :: s' =>
      match l with
      | [] => Err IndexError
      | x :: l' => '(bs, rest) <- fill_buckets s' l' ;; Ok ([x] :: bs, rest)
      end
  end.

(** The rest goes to random buckets: tests.py 598-601 *)
Fixpoint append_at (i : nat) (x : str) (bs : list (list str)) : list (list str) :=
  match bs, i with
  | [], _ => []
  | b :: bs', O => (b ++ [x]) :: bs'
  | b :: bs', S i' => b :: append_at i' x bs'
  end.
Fixpoint spread (bs : list (list str)) (l : list str) (rs : list nat)
    : result (list (list str) * list nat) :=
  match l with
  | [] => Ok (bs, rs)
  | x :: l' =>
      match bs with
      | [] => Err IndexError
      | _ => let '(i, rs) := draw (length bs) rs in spread (append_at i x bs) l' rs
      end
  end.

(** tests.py 605-611.  The call of Select with the identifier of a section instead of the
    section fails. *)
Fixpoint expand_bucket (b : list str) : result form_ :=
  match b with
  | [] => Ok []
  | x :: b' =>
      match parts x with
      | None => Err KeyError
      | Some c => if is_section c then Err AttributeError
                  else r <- expand_bucket b' ;; Ok (Some x :: r)
      end
  end.

(** tests.py 612-613: the first None is replaced *)
Fixpoint splice_in (selection new : form_) : result form_ :=
  match selection with
  | [] => Err ValueError
  | None :: s' => Ok (new ++ s')
  | Some x :: s' => r <- splice_in s' new ;; Ok (Some x :: r)
  end.
Fixpoint splice_all (bs : list (list str)) (selection : form_) : result form_ :=
  match bs with
  | [] => Ok selection
  | b :: bs' =>
      new <- expand_bucket b ;;
      selection <- splice_in selection new ;;
      splice_all bs' selection
  end.

(** Step 5: tests.py 581-614 *)
Definition step5 (selection : form_) (shuffleList : list str) (rs : list nat)
    : result (form_ * list nat) :=
  match shuffleList with
  | [] => Ok (selection, rs)
  | _ =>
      let '(shuffleList, rs) := random_shuffle shuffleList rs in
      '(buckets, rest) <- fill_buckets selection shuffleList ;;
      '(buckets, rs) <- spread buckets rest rs ;;
      selection <- splice_all buckets selection ;;
      Ok (selection, rs)
  end.

Definition select_body (sel : option (Z * bool)) (shuffle : bool) (children : list part)
    (subs : list selector) : selector := fun expand rs =>
  '(selection, rs) <- choose sel children rs ;;
  '(selection, shuffleList, rs) <- step4 shuffle expand children subs selection [] [] rs ;;
  step5 selection shuffleList rs.

Fixpoint Select (p : part) {struct p} : selector :=
  match p with
  | Item _ _ _ => fun _ _ => Err AttributeError
  | Sect _ _ _ _ _ sel shuffle children =>
      select_body sel shuffle children (map Select children)
  end.

(** ** TestForm.__init__: tests.py 484-497 *)
Record testPart := mkTestPart { tp_id : str; tp_sections : list part }.

Fixpoint form_sections (ss : list part) (rs : list nat) : result (form_ * list nat) :=
  match ss with
  | [] => Ok ([], rs)
  | s :: ss' =>
      '(l, rs) <- Select s true rs ;;
      '(r, rs) <- form_sections ss' rs ;;
      Ok (Some (ident s) :: l ++ Some (close (ident s)) :: r, rs)
  end.
Fixpoint form_parts (ps : list testPart) (rs : list nat) : result (form_ * list nat) :=
  match ps with
  | [] => Ok ([], rs)
  | p :: ps' =>
      '(l, rs) <- form_sections (tp_sections p) rs ;;
      '(r, rs) <- form_parts ps' rs ;;
      Ok (Some (tp_id p) :: l ++ Some (close (tp_id p)) :: r, rs)
  end.
Definition TestForm (ps : list testPart) (rs : list nat) : result form_ :=
  '(l, _) <- form_parts ps rs ;; Ok (Some [] :: l).

End Select.

(** TestForm.map and find: tests.py 498-503, 617-621.  A dictionary from identifiers to
    lists of indexes, in the order of insertion. *)
Fixpoint map_add (id : option str) (i : nat) (m : list (option str * list nat))
    : list (option str * list nat) :=
  match m with
  | [] => [(id, [i])]
  | (k, l) :: m' =>
      if match k, id with
         | Some a, Some b => str_eqb a b
         | None, None => true
         | _, _ => false
         end
      then (k, l ++ [i]) :: m' else (k, l) :: map_add id i m'
  end.
Fixpoint build_map (i : nat) (l : form_) (m : list (option str * list nat))
    : list (option str * list nat) :=
  match l with
  | [] => m
  | id :: l' => build_map (S i) l' (map_add id i m)
  end.
Fixpoint lookup (id : str) (m : list (option str * list nat)) : list nat :=
  match m with
  | [] => []
  | (Some k, l) :: m' => if str_eqb k id then l else lookup id m'
  | (None, _) :: m' => lookup id m'
  end.
Definition find (l : form_) (id : str) : list nat := lookup id (build_map 0 l []).
