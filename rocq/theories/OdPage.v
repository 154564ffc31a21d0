(** Model of the paging of entity collections: pyslet/pyslet/odata2/csdl.py 2573-2599 (ordering),
    2712-2815 (pages), memds.py 409-413 (the entities of a collection in memory), core.py
    2383-2402 and server.py 489-500, 670-684 (a page and its next link), client.py 197-300
    (a client reading pages).

    Simplifications.
    - An iteration is complete: generators that are abandoned are not modelled; lastEntity is
      left out.
    - The values entities are ordered by are compared with a function given for each rule;
      exceptions raised by the evaluation of rules or of the filter are not modelled.
    - A next link is its skip token: the other query options repeat those of the request except
      $top and $skip, which core.py 2383-2402 leaves out.
    - Entities added or deleted while a page is being read are not modelled; between pages they
      are. *)
From Verif Require Import Py Iso Dec Shapes XmlChars HttpCore.
Open Scope Z_scope.
Open Scope list_scope.

(** int(s,16): white space around, a sign and 0x are allowed *)
Definition hex_value (c : Z) : option Z :=
  if (48 <=? c) && (c <=? 57) then Some (c - 48)
  else if (65 <=? c) && (c <=? 70) then Some (c - 55)
  else if (97 <=? c) && (c <=? 102) then Some (c - 87)
  else None.
Fixpoint hex_run (s : str) (v : Z) : option Z :=
  match s with
  | [] => Some v
  | c :: s' => match hex_value c with Some d => hex_run s' (v * 16 + d) | None => None end
  end.
Definition hex_digits_of (s : str) : option Z := match s with [] => None | _ => hex_run s 0 end.
Definition hex_unsigned (s : str) : option Z :=
  match s with
  | 48 :: x :: s' => if (x =? 120) || (x =? 88) then hex_digits_of s' else hex_digits_of s
  | _ => hex_digits_of s
  end.
Definition int16 (s : str) : option Z :=
  match strip s with
  | 45 :: s' => match hex_unsigned s' with Some n => Some (- n) | None => None end
  | 43 :: s' => hex_unsigned s'
  | s' => hex_unsigned s'
  end.
(** "%X" *)
Definition hexstr (n : Z) : str := if n <? 0 then 45 :: fmt_X 0 (- n) else fmt_X 0 n.

Section Collection.
Context {E : Type}.

(** ** Ordering *)
(** csdl.py 2573-2599 OrderEntities: e.Key() and the values of the rules; [true] is descending.
    sort(reverse=True) keeps the order of equal elements. *)
Variable by_key : E -> E -> comparison.
Definition direct (r : (E -> E -> comparison) * bool) : E -> E -> comparison :=
  fun a b => if snd r then fst r b a else fst r a b.
Definition OrderEntities (paging : bool) (orderby : list ((E -> E -> comparison) * bool)) (es : list E) : list E :=
  fold_left (fun l r => sort (direct r) l) (rev orderby) (if paging then sort by_key es else es).
(** memds.py 409-413, 83-97: the filter and the rules are given the entities with the properties
    that were not selected set to NULL, [select] *)
Definition itervalues (paging : bool) (orderby : list ((E -> E -> comparison) * bool))
    (filter_ : E -> bool) (select : E -> E) (table : list E) : list E :=
  OrderEntities paging orderby (filter filter_ (map select table)).

(** ** Pages: csdl.py 2712-2741 *)
Record page := mkPage {
  top : option Z; skip : option Z; skiptoken : option str; nextSkiptoken : option str; topmax : option Z }.
Definition new_collection : page := mkPage None (Some 0) None None None.
Definition SetPage (t s : option Z) (token : option str) (p : page) : page := mkPage t s token None (topmax p).
Definition TopMax (m : option Z) (p : page) : page := mkPage (top p) (skip p) (skiptoken p) (nextSkiptoken p) m.
Definition NextSkipToken (p : page) : option str := nextSkiptoken p.

(** 2784-2792: all entities from number eMin *)
Fixpoint from (eMin i : Z) (es : list E) : list E :=
  match es with
  | [] => []
  | e :: es' => if i >=? eMin then e :: from eMin (i + 1) es' else from eMin (i + 1) es'
  end.
(** 2793-2811: up to number eMax; [Some i] if the iteration stopped before the end *)
Fixpoint between (eMin eMax i : Z) (es : list E) : list E * option Z :=
  match es with
  | [] => ([], None)
  | e :: es' =>
      if i <? eMin then between eMin eMax (i + 1) es'
      else if i <? eMax then let '(l, stop) := between eMin eMax (i + 1) es' in (e :: l, stop)
      else ([], Some i)
  end.
(** csdl.py 2742-2815 iterpage; [es] is itervalues() with paging set *)
Definition iterpage (setNextPage : bool) (es : list E) (p : page) : list E * page :=
  if match top p with Some t => t =? 0 | None => false end then ([], p)
  else
    let eMin := match skiptoken p with
                | Some t => match int16 t with Some n => n | None => 0 end
                | None => 0
                end in
    let eMin := match skip p with Some s => s + eMin | None => eMin end in
    let '(eMax, next) :=
      match topmax p with
      | Some m =>
          if m =? 0 then (match top p with None => None | Some t => Some (eMin + t) end, None)
          else
            match top p with
            | Some t => if t >? m then (Some (eMin + m), Some (hexstr (eMin + m))) else (Some (eMin + t), None)
            | None => (Some (eMin + m), Some (hexstr (eMin + m)))
            end
      | None => (match top p with None => None | Some t => Some (eMin + t) end, None)
      end in
    let p := mkPage (top p) (skip p) (skiptoken p) next (topmax p) in
    let ended := mkPage (Some 0) (Some 0) None next (topmax p) in
    match eMax with
    | None => (from eMin 0 es, if setNextPage then ended else p)
    | Some eMax =>
        match between eMin eMax 0 es with
        | (l, None) => (l, if setNextPage then ended else p)
        | (l, Some i) =>
            (l, if setNextPage then
                  match next with
                  | None => mkPage (top p) (Some i) None next (topmax p)
                  | Some t => mkPage (top p) None (Some t) next (topmax p)
                  end
                else p)
        end
    end.

(** ** Server and client *)
(** One request for a collection: server.py 489-500, 670-684 and core.py 2743-2760.  The
    collection is new; the next link is its skip token. *)
Definition serve (m : option Z) (es : list E) (t s : option Z) (token : option str) : list E * option str :=
  let '(l, p) := iterpage false es (TopMax m (SetPage t s token new_collection)) in
  (l, NextSkipToken p).

(** client.py 245-300: the pages of a client; [c] holds top, skip, skiptoken, nextSkiptoken *)
Definition client_iterpage (m : option Z) (setNextPage : bool) (es : list E) (c : page) : list E * page :=
  let '(l, next) := serve m es (top c) (skip c) (skiptoken c) in
  (l, if setNextPage then
        match next with
        | Some t => mkPage (top c) None (Some t) next None
        | None =>
            let n := Z.of_nat (length l) in
            mkPage (top c) (Some (match skip c with Some s => s + n | None => n end)) (skiptoken c) next None
        end
      else mkPage (top c) (skip c) (skiptoken c) next None).

(** client.py 197-237 entityGenerator: follow the next links until there is none or a page is
    empty.  [ess] gives the entities at each request; [k] requests at most *)
Fixpoint entityGenerator (m : option Z) (ess : nat -> list E) (n : nat) (token : option str) (k : nat)
  : result (list E) :=
  match k with
  | O => Err OutOfFuel
  | S k' =>
      let '(l, next) := serve m (ess n) None None token in
      match l with
      | [] => Ok []
      | _ =>
          match next with
          | None => Ok l
          | Some t => r <- entityGenerator m ess (S n) (Some t) k' ;; Ok (l ++ r)
          end
      end
  end.

(** The pages read one after the other with setNextPage *)
Fixpoint pages (ess : nat -> list E) (n : nat) (p : page) (k : nat) : list (list E) :=
  match k with
  | O => []
  | S k' => let '(l, p) := iterpage true (ess n) p in l :: pages ess (S n) p k'
  end.
Fixpoint client_pages (m : option Z) (ess : nat -> list E) (n : nat) (c : page) (k : nat) : list (list E) :=
  match k with
  | O => []
  | S k' => let '(l, c) := client_iterpage m true (ess n) c in l :: client_pages m ess (S n) c k'
  end.
End Collection.
