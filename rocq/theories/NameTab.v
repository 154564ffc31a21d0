(** Model of NameTableMixin, pyslet/pyslet/odata2/csdl.py 345-434, with what it has from DictionaryLike (113-342). *)
From Coq Require Import List Arith Bool ZArith Lia.
From Verif Require Import Py.
Import ListNotations.
Open Scope nat_scope.

(** What may be declared: [Leaf] is an object that is not a NameTableMixin, [Scope] one that is, with its
    nameTable (358-360) as a list without order of its own; the numbers tell objects apart.  The name of an
    object is the one it was declared with: it is not changed afterwards. *)
Inductive value := Leaf (t : nat) | Scope (t : nat) (nameTable : list (str * value)).
Definition table : Type := list (str * value).
(** DuplicateName 47, IncompatibleNames 56, the others Python's own *)
Inductive error := DuplicateName | IncompatibleNames | KeyError | NameError | TypeError.
Definition dot : Z := 46.

(** nameTable.get(key,None) *)
Definition get (key : str) (tab : table) : option value :=
  match find (fun p => str_eqb (fst p) key) tab with Some p => Some (snd p) | None => None end.
(** key.split("."), 398 *)
Fixpoint split (key : str) : list str :=
  match key with
  | [] => [[]]
  | c :: k =>
      match split k with
      | w :: ws => if (c =? dot)%Z then [] :: w :: ws else (c :: w) :: ws
      | [] => [[c]]
      end
  end.
(** string.join(l,".") *)
Fixpoint join (l : list str) : str :=
  match l with
  | [] => []
  | [w] => w
  | w :: ws => w ++ dot :: join ws
  end.
(** the loop 399-404; [n] is the number of path lengths not yet tried *)
Fixpoint SplitKey_from (n pathLen : nat) (sKey : list str) (tab : table) : option (table * str) :=
  match n with
  | O => None
  | S n =>
      if pathLen <? length sKey then
        match get (join (firstn pathLen sKey)) tab with
        | Some (Scope _ sub) => Some (sub, join (skipn pathLen sKey))
        | _ => SplitKey_from n (S pathLen) sKey tab
        end
      else None
  end.
(** 397-405 *)
Definition SplitKey (key : str) (tab : table) : option (table * str) :=
  let sKey := split key in SplitKey_from (length sKey) 1 sKey tab.
(** 362-375; [None] if there is not enough fuel *)
Fixpoint getitem (fuel : nat) (key : str) (tab : table) : option (value + error) :=
  match fuel with
  | O => None
  | S fuel =>
      match get key tab with
      | Some v => Some (inl v)
      | None =>
          match SplitKey key tab with
          | Some (sub, rest) => getitem fuel rest sub
          | None => Some (inr KeyError)
          end
      end
  end.
Definition GetItem (key : str) (tab : table) : option (value + error) := getitem (S (length key)) key tab.
(** 377-387 *)
Fixpoint keys_of (v : value) : list str :=
  match v with
  | Leaf _ => []
  | Scope _ tab => map fst tab ++ flat_map (fun p => match p with (n, v) => map (fun k => n ++ dot :: k) (keys_of v) end) tab
  end.
Definition keys (tab : table) : list str := keys_of (Scope 0 tab).
(** 233-246 iteritems, items *)
Definition items (tab : table) : list (str * option (value + error)) := map (fun k => (k, GetItem k tab)) (keys tab).
(** 194-203 __contains__, 253-260 get *)
Definition contains (key : str) (tab : table) : bool := match GetItem key tab with Some (inl _) => true | _ => false end.
(** 389-395 __len__: NameTableMixim is not defined, and there is no return *)
Definition len (tab : table) : nat + error := match tab with [] => inr TypeError | _ => inr NameError end.
(** str.startswith *)
Definition starts (p s : str) : bool := str_eqb (firstn (length p) s) p.
(** 407-425 *)
Definition Declare (name : str) (v : value) (tab : table) : table + error :=
  if existsb (fun p => str_eqb (fst p) name) tab then inr DuplicateName
  else if existsb (fun p => starts (name ++ [dot]) (fst p) || starts (fst p ++ [dot]) name) tab then inr IncompatibleNames
  else inl (tab ++ [(name, v)]).
(** 427-434 *)
Definition Undeclare (name : str) (tab : table) : table + error :=
  if existsb (fun p => str_eqb (fst p) name) tab then inl (filter (fun p => negb (str_eqb (fst p) name)) tab) else inr KeyError.
