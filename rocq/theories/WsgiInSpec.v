(** What a file with the body of the request would do *)
From Verif Require Import Py WsgiIn.
Open Scope nat_scope.
Open Scope list_scope.

(** The body of the request: CONTENT_LENGTH bytes of the input, or all of it *)
Definition body (contentLength : option nat) (input : str) : str :=
  match contentLength with Some l => firstn l input | None => input end.
(** All that can happen, but for seeking beyond the buffer *)
Inductive reached (seekSize : nat) (cl : option nat) (input : str) (reads : list nat) (block : nat) : inp -> Prop :=
| ROpen : reached seekSize cl input reads block (Open seekSize cl input reads)
| RRead : forall s n, reached seekSize cl input reads block s -> reached seekSize cl input reads block (snd (read n s))
| RAll : forall s fuel d s', reached seekSize cl input reads block s -> readall fuel block s = Some (d, s') ->
    reached seekSize cl input reads block s'
| RLine : forall s fuel lim d s', reached seekSize cl input reads block s -> readline fuel lim s = Some (d, s') ->
    reached seekSize cl input reads block s'
| RSeek : forall s w o s', reached seekSize cl input reads block s -> seek block w o s = Some s' ->
    (tell s' <= length (buf s'))%nat -> reached seekSize cl input reads block s'.
(** A line, with its end *)
Fixpoint first_line (t : str) : str :=
  match t with [] => [] | c :: r => if (c =? 10)%Z then [c] else c :: first_line r end.
(** The lines a text begins with *)
Inductive begins : str -> list str -> Prop :=
| BNil : forall t, begins t []
| BCons : forall t l, t <> [] -> begins (skipn (length (first_line t)) t) l -> begins t (first_line t :: l).
