(** Model of RFC2234ABNFRuleBase in pyslet/pyslet/rfc2234.py: rules, generating and validating data. *)
From Coq Require Import List Arith Bool ZArith Lia.
From Verif Require Import Py.
Import ListNotations.
Open Scope nat_scope.

(** 492-500: the kinds of rules with their arguments; the numbers are of rules *)
Inductive body :=
| Undefined
| Terminal (s : str)
| Literal (s : str)
| ValueRange (lo hi : Z)
| Sequence (l : list nat)
| Alternative (l : list nat)
| Repeat (min : nat) (max : option nat) (r : nat)
| Prose (s : str)
| Alias (r : nat).
(** 510-513: rules and ruleID.  The key of a rule is its place, nextRuleID the length of the list. *)
Record rulebase := mkBase { rules : list (option str * body); ids : list (str * nat) }.
(** Reset: 510-513 *)
Definition empty_base : rulebase := mkBase [] [].
(** what the calls raise: RFC2234RuleError 38, the others Python's own *)
Inductive error := RFC2234RuleError | NameError | KeyError | ValueError | IndexError.

(** str.lower of one character, and 259-260 IsALPHA (the strings are ASCII) *)
Definition lower (c : Z) : Z := if ((65 <=? c) && (c <=? 90))%Z then (c + 32)%Z else c.
Definition upper (c : Z) : Z := if ((97 <=? c) && (c <=? 122))%Z then (c - 32)%Z else c.
Definition IsALPHA (c : Z) : bool := ((65 <=? c) && (c <=? 90) || (97 <=? c) && (c <=? 122))%Z.
Definition lowers (s : str) : str := map lower s.

(** ** 515-586: adding, declaring, defining, finding rules *)
(** rule==self.rules[r][1:], 519: lists of numbers and strings compared *)
Definition list_eqb {A} (eqb : A -> A -> bool) : list A -> list A -> bool :=
  fix go a b := match a, b with [], [] => true | x :: a, y :: b => eqb x y && go a b | _, _ => false end.
Definition opt_eqb (a b : option nat) : bool := match a, b with Some x, Some y => x =? y | None, None => true | _, _ => false end.
Definition body_eqb (a b : body) : bool :=
  match a, b with
  | Undefined, Undefined => true
  | Terminal s, Terminal t | Literal s, Literal t | Prose s, Prose t => str_eqb s t
  | ValueRange a b, ValueRange c d => ((a =? c) && (b =? d))%Z
  | Sequence l, Sequence m | Alternative l, Alternative m => list_eqb Nat.eqb l m
  | Repeat a b r, Repeat c d q => (a =? c) && opt_eqb b d && (r =? q)
  | Alias r, Alias q => r =? q
  | _, _ => false
  end.
(** the loop 516-520 *)
Fixpoint place (b : body) (l : list (option str * body)) : option nat :=
  match l with
  | [] => None
  | (_, c) :: l => if body_eqb b c then Some 0 else match place b l with Some n => Some (S n) | None => None end
  end.
(** 515-524 AddRule (of equal rules the first) *)
Definition AddRule (b : body) (B : rulebase) : rulebase * nat :=
  match place b (rules B) with
  | Some r => (B, r)
  | None => (mkBase (rules B ++ [(None, b)]) (ids B), length (rules B))
  end.
(** the dictionary ruleID, 513: `in` and subscription (529-530), assignment (535, 579) *)
Definition lookup (n : str) (l : list (str * nat)) : option nat :=
  match find (fun p => str_eqb (fst p) n) l with Some p => Some (snd p) | None => None end.
Definition store (n : str) (r : nat) (l : list (str * nat)) : list (str * nat) := (n, r) :: filter (fun p => negb (str_eqb (fst p) n)) l.
(** 526-536 DeclareRule *)
Definition DeclareRule (name : str) (B : rulebase) : rulebase * nat :=
  match lookup (lowers name) (ids B) with
  | Some r => (B, r)
  | None => (mkBase (rules B ++ [(Some name, Undefined)]) (store (lowers name) (length (rules B)) (ids B)), length (rules B))
  end.
(** self.rules[n]=x (551, 554) and assignments to the name of a rule (555, 565, 576) *)
Definition set_nth {A} (n : nat) (x : A) (l : list A) : list A := firstn n l ++ x :: skipn (S n) l.
(** `if rule[0]` (548, 558): a name that is not empty *)
Definition named (o : option str) : bool := match o with Some (_ :: _) => true | _ => false end.
(** 538-579 DefineRule *)
Definition DefineRule (name : str) (incremental : bool) (r : nat) (B : rulebase) : rulebase + error :=
  match nth_error (rules B) r with
  | None => inr KeyError
  | Some (rname, rb) =>
      if incremental then
        match lookup (lowers name) (ids B) with
        | None => inr RFC2234RuleError
        | Some _ =>
            match lookup name (ids B) with
            | None => inr KeyError
            | Some old =>
                match nth_error (rules B) old with
                | None => inr KeyError
                | Some (_, Undefined) => inr RFC2234RuleError
                | Some (_, ob) =>
                    let l := rules B ++ [(Some name, Alternative [old; r])] in
                    inl (mkBase (set_nth old (None, ob) l) (store (lowers name) (length (rules B)) (ids B)))
                end
            end
        end
      else
        match lookup (lowers name) (ids B) with
        | Some old =>
            match nth_error (rules B) old with
            | None => inr KeyError
            | Some (_, Undefined) =>
                if named rname then inl (mkBase (set_nth old (Some name, rb) (rules B)) (store (lowers name) old (ids B)))
                else inl (mkBase (set_nth old (None, Alias r) (set_nth r (Some name, rb) (rules B))) (store (lowers name) r (ids B)))
            | Some _ => inr RFC2234RuleError
            end
        | None =>
            if named rname then inl (mkBase (rules B ++ [(Some name, rb)]) (store (lowers name) (length (rules B)) (ids B)))
            else inl (mkBase (set_nth r (Some name, rb) (rules B)) (store (lowers name) r (ids B)))
        end
  end.

(** ** 663-737 GenerateData *)
(** rulePos: None, an int, or the list of the repeat rule *)
Inductive pos := Start | At (k : nat) | Left (todo extra : nat).
Inductive generated := Generated (s : str) | Raised (e : error) | NotChosen | Running.
(** [choices] are the results of random.randrange; a number it cannot return gives [NotChosen] *)
Definition randrange (lo hi : Z) (choices : list Z) : option (Z * list Z) :=
  match choices with
  | c :: cs => if ((lo <=? c) && (c <? hi))%Z then Some (c, cs) else None
  | [] => None
  end.
(** recursionControl[r] counted up and down (691, 699, 703, 713, 725, 732) *)
Definition bump (r : nat) (d : nat) (rc : list nat) : list nat := set_nth r (nth r rc 0 + d) rc.
Definition unbump (r : nat) (d : nat) (rc : list nat) : list nat := set_nth r (nth r rc 0 - d) rc.
(** 674-682: the letters of a literal, each in upper or lower case *)
Fixpoint any_case (s : str) (choices : list Z) : option (str * list Z) :=
  match s with
  | [] => Some ([], choices)
  | c :: s =>
      if IsALPHA c then
        match randrange 0 2 choices with
        | Some (x, cs) => match any_case s cs with Some (t, cs) => Some ((if x =? 0 then upper c else lower c)%Z :: t, cs) | None => None end
        | None => None
        end
      else match any_case s choices with Some (t, cs) => Some (c :: t, cs) | None => None end
  end.
Section Generate.
Variable R : list (option str * body).
Variable maxOptRepeat : nat.
(** the loop 667-737.  Strings are unicode strings of a wide build (chr and unichr both give the character
    or ValueError); the recursion counters of rules that do not exist read as 0, where Python raises
    IndexError instead of KeyError later.  The top of the stack comes first; counting below zero does not happen *)
Fixpoint generate (fuel : nat) (stack : list (nat * pos)) (rc : list nat) (choices : list Z) (out : str) : generated :=
  match fuel with
  | O => Running
  | S fuel =>
      match stack with
      | [] => Generated out
      | (r, p) :: stack =>
          match nth_error R r with
          | None => Raised KeyError
          | Some (_, b) =>
              match b with
              | Terminal s => generate fuel stack rc choices (out ++ s)
              | Literal s => match any_case s choices with Some (t, cs) => generate fuel stack rc cs (out ++ t) | None => NotChosen end
              | ValueRange lo hi =>
                  if (lo <=? hi)%Z then
                    match randrange lo (hi + 1) choices with
                    | Some (c, cs) => if (c <? 0)%Z || (1114111 <? c)%Z then Raised ValueError else generate fuel stack rc cs (out ++ [c])
                    | None => NotChosen
                    end
                  else Raised ValueError
              | Sequence _ | Alias _ =>
                  let l := match b with Sequence l => l | Alias q => [q] | _ => [] end in
                  let '(k, rc) := match p with Start => (0, bump r 1 rc) | At k => (S k, rc) | Left _ _ => (0, rc) end in
                  match nth_error l k with
                  | Some q => generate fuel ((q, Start) :: (r, At k) :: stack) rc choices out
                  | None => generate fuel stack (unbump r 1 rc) choices out
                  end
              | Alternative l =>
                  match p with
                  | Start =>
                      let rc := bump r 1 rc in
                      match filter (fun q => nth q rc 0 <? maxOptRepeat) l with
                      | [] => Raised RFC2234RuleError
                      | free =>
                          match randrange 0 (Z.of_nat (length free)) choices with
                          | Some (c, cs) => generate fuel ((nth (Z.to_nat c) free 0, Start) :: (r, At 0) :: stack) rc cs out
                          | None => NotChosen
                          end
                      end
                  | _ => generate fuel stack (unbump r 1 rc) choices out
                  end
              | Repeat min max q =>
                  let go todo extra rc cs :=
                    if todo =? 0 then generate fuel stack (unbump r extra rc) cs out
                    else generate fuel ((q, Start) :: (r, Left todo extra) :: stack) rc cs out in
                  match p with
                  | Left todo extra => go (todo - 1) extra rc choices
                  | _ =>
                      let most := min + (maxOptRepeat - nth r rc 0) in
                      let max := match max with Some m => if most <? m then most else m | None => most end in
                      if max <? min then Raised ValueError
                      else
                        match randrange (Z.of_nat min) (Z.of_nat max + 1) choices with
                        | Some (c, cs) => let n := Z.to_nat c in go n (n - min) (bump r (n - min) rc) cs
                        | None => NotChosen
                        end
                  end
              | Prose _ | Undefined => Raised RFC2234RuleError
              end
          end
      end
  end.
End Generate.
(** 663-666: GetRuleID (581-586), then the loop *)
Definition GenerateData (B : rulebase) (name : str) (maxOptRepeat fuel : nat) (choices : list Z) : generated :=
  match lookup (lowers name) (ids B) with
  | None => Raised RFC2234RuleError
  | Some r => generate (rules B) maxOptRepeat fuel [(r, Start)] (repeat 0 (length (rules B))) choices []
  end.

(** ** 739-821 ValidateData *)
(** returning, raising, or still in the loop *)
Inductive verdict := Accepted | Failed (e : error) | Undecided.
Section Validate.
Variable R : list (option str * body).
Variable data : str.
(** list.sort: which of the states with the least position comes first depends on the rules' numbers *)
Variable first : list (nat * list (nat * pos)) -> option ((nat * list (nat * pos)) * list (nat * list (nat * pos))).
(** (pos,ruleStack), 743; the name carried along for messages is left out *)
Definition state : Type := nat * list (nat * pos).
(** one state, its first rule done: the states that take its place.  A mismatch raises NameError, because
    there is no RFCValidyError (the class is RFCValidityError); so does every other exception inside the
    try, because the except clause (816) has to look that name up *)
Definition advance (i : nat) (r : nat) (p : pos) (stack : list (nat * pos)) : list state + error :=
  match nth_error R r with
  | None => inr NameError
  | Some (_, b) =>
      match b with
      | Terminal s => if str_eqb (firstn (length s) (skipn i data)) s then inl [(i + length s, stack)] else inr NameError
      | Literal s => if str_eqb (lowers (firstn (length s) (skipn i data))) (lowers s) then inl [(i + length s, stack)] else inr NameError
      | ValueRange lo hi =>
          match nth_error data i with
          | Some c => if ((lo <=? c) && (c <=? hi))%Z then inl [(S i, stack)] else inr NameError
          | None => inr NameError
          end
      | Sequence l =>
          let k := match p with At k => S k | _ => 0 end in
          match nth_error l k with
          | Some q => inl [(i, (q, Start) :: (if S k <? length l then (r, At k) :: stack else stack))]
          | None => inl [(i, stack)]
          end
      | Alternative l =>
          let k := match p with At k => S k | _ => 0 end in
          match nth_error l k with
          | Some q => inl ((if S k <? length l then [(i, (r, At k) :: stack)] else []) ++ [(i, (q, Start) :: stack)])
          | None => inl [(i, stack)]
          end
      | Repeat min max q =>
          let k := match p with At k => S k | _ => 0 end in
          if k <? min then inl [(i, (q, Start) :: (r, At k) :: stack)]
          else if match max with None => true | Some m => k <? m end then inl [(i, stack); (i, (q, Start) :: (r, At k) :: stack)]
          else inl [(i, stack)]
      | Alias q => inl [(i, (q, Start) :: stack)]
      | Prose _ | Undefined => inr NameError
      end
  end.
(** the loop 744-821 *)
Fixpoint validate (fuel : nat) (states : list state) : verdict :=
  match fuel with
  | O => Undecided
  | S fuel =>
      match first states with
      | None => Failed IndexError
      | Some ((_, []), _) => Accepted
      | Some ((i, (r, p) :: stack), rest) =>
          match advance i r p stack with
          | inl new => validate fuel (rest ++ new)
          | inr e => Failed e
          end
      end
  end.
End Validate.
(** 739-743 *)
Definition ValidateData (B : rulebase) (name data : str) first (fuel : nat) : verdict :=
  match lookup (lowers name) (ids B) with
  | None => Failed RFC2234RuleError
  | Some r => validate (rules B) data first fuel [(0, [(r, Start)])]
  end.
