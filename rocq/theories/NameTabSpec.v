(** What keys of nested scopes stand for. *)
From Coq Require Import List ZArith.
From Verif Require Import Py NameTab.
Import ListNotations.

(** The objects a scope holds and the keys that lead to them. *)
Inductive at_key : table -> str -> value -> Prop :=
| at_name tab n v : In (n, v) tab -> at_key tab n v
| at_nested tab n t sub k v : In (n, Scope t sub) tab -> at_key sub k v -> at_key tab (n ++ dot :: k) v.
(** One name is the other with a dot and more. *)
Definition extends (long short : str) : Prop := exists k, long = short ++ dot :: k.
(** Scopes as they come about: by declaring and undeclaring, also inside of objects declared already. *)
Inductive built : value -> Prop :=
| built_leaf t : built (Leaf t)
| built_empty t : built (Scope t [])
| built_declare t tab n v tab' : built (Scope t tab) -> built v -> Declare n v tab = inl tab' -> built (Scope t tab')
| built_undeclare t tab n tab' : built (Scope t tab) -> Undeclare n tab = inl tab' -> built (Scope t tab')
| built_inside t before n s sub sub' after :
    built (Scope t (before ++ (n, Scope s sub) :: after)) -> built (Scope s sub') -> built (Scope t (before ++ (n, Scope s sub') :: after)).
