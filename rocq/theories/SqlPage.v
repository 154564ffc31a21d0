(** Model of the paging of SQL collections: pyslet/pyslet/odata2/sqlds.py 353-497 (pages), 588-639
    (the WHERE clause of a skip token), 641-700 (ORDER BY).

    Simplifications.
    - A row is given by the values of its ORDER BY columns, [vals]: those of the $orderby
      expressions, then the keys; None is NULL.  The table holds the rows the filter lets through.
    - A skip token is the list of its values: NewFromSQLValue, the formatting of literals and
      their parsing are taken as inverse to each other.
    - The text of the condition is a list of tokens; the parameters stand in place of their marks.
    - The iteration over a page is complete; the transaction is one query. *)
From Verif Require Import Py Iso HttpCore.
Open Scope Z_scope.
Open Scope list_scope.

Section Sql.
Context {R V : Type}.
Variable vals : R -> list (option V).
(** orderNames: the directions of the columns, [true] is DESC *)
Variable dirs : list bool.
(** isinstance(v,Int32Value), an Int32Value, len(v.value) for strings and binary data and 0 for
    other values *)
Variable as_int : V -> option Z.
Variable of_int : Z -> V.
Variable size_of : V -> Z.

(** ** The condition: 610-639 WhereSkiptokenClause *)
Inductive token := TOpen | TClose | TOr | TAnd | TCmp (col : nat) (op : comparison) (v : option V).
Fixpoint skip_loop (i : nat) (names : list bool) (tok : list (option V)) (ket : nat) : result (list token) :=
  match names, tok with
  | desc :: names', v :: tok' =>
      let first := [TOpen; TCmp i (if desc then Lt else Gt) v] in
      match names' with
      | [] => Ok (first ++ repeat TClose (S ket))
      | _ => rest <- skip_loop (S i) names' tok' (S (S ket)) ;;
             Ok (first ++ [TOr; TOpen; TCmp i Eq v; TAnd] ++ rest)
      end
  | _, _ => Err IndexError
  end.
Definition WhereSkiptokenClause (tok : list (option V)) : result (list token) := skip_loop 0 dirs tok 0.

(** ** Pages *)
Record sqlpage := mkSql {
  q_top : option Z; q_skip : option Z; q_token : option (list (option V));
  q_next : option (list (option V)); q_topmax : option Z }.
(** 353-398 SetPage *)
Definition SetPage (top skip : option Z) (tok : option (list (option V))) (topmax : option Z) : result sqlpage :=
  match tok with
  | None => Ok (mkSql top skip None None topmax)
  | Some t =>
      if (length t =? S (length dirs))%nat then
        match last t None with
        | Some v =>
            match as_int v with
            | Some n =>
                match skip with
                | Some s => Ok (mkSql top (Some (s + n)) (Some (removelast t)) None topmax)
                | None => Err TypeError
                end
            | None => Err ProcessingError
            end
        | None => Err ProcessingError
        end
      else if (length t =? length dirs)%nat then Ok (mkSql top skip (Some t) None topmax)
      else Err ProcessingError
  end.
(** 400-407 NextSkipToken *)
Definition NextSkipToken (s : sqlpage) : option (list (option V)) :=
  match q_next s with Some (v :: l) => Some (v :: l) | _ => None end.

(** 434-489: the rows of the page and how it ended *)
Inductive stop := NoMore | AtTopmax (r : R) | AtTop.
Fixpoint page_loop (rows : list R) (skip top topmax : option Z) : list R * stop :=
  match rows with
  | [] => ([], NoMore)
  | r :: rows' =>
      match skip with
      | Some n => if n =? 0 then
          match topmax with
          | Some m =>
              if m - 1 <? 1 then ([r], AtTopmax r)
              else
                match top with
                | Some t => if t - 1 <? 1 then ([r], AtTop)
                            else let '(l, e) := page_loop rows' skip (Some (t - 1)) (Some (m - 1)) in (r :: l, e)
                | None => let '(l, e) := page_loop rows' skip None (Some (m - 1)) in (r :: l, e)
                end
          | None =>
              match top with
              | Some t => if t - 1 <? 1 then ([r], AtTop)
                          else let '(l, e) := page_loop rows' skip (Some (t - 1)) None in (r :: l, e)
              | None => let '(l, e) := page_loop rows' skip None None in (r :: l, e)
              end
          end
          else page_loop rows' (Some (n - 1)) top topmax
      | None =>
          match topmax with
          | Some m =>
              if m - 1 <? 1 then ([r], AtTopmax r)
              else
                match top with
                | Some t => if t - 1 <? 1 then ([r], AtTop)
                            else let '(l, e) := page_loop rows' None (Some (t - 1)) (Some (m - 1)) in (r :: l, e)
                | None => let '(l, e) := page_loop rows' None None (Some (m - 1)) in (r :: l, e)
                end
          | None =>
              match top with
              | Some t => if t - 1 <? 1 then ([r], AtTop)
                          else let '(l, e) := page_loop rows' None (Some (t - 1)) None in (r :: l, e)
              | None => let '(l, e) := page_loop rows' None None None in (r :: l, e)
              end
          end
      end
  end.
Definition token_length (t : list (option V)) : Z :=
  fold_right (fun v n => match v with Some v => size_of v | None => 0 end + n) 0 t.
(** 454-475: the token after the last row of a page *)
Definition next_token (s : sqlpage) (m : Z) (r : R) : result (list (option V)) :=
  let t := vals r in
  if token_length t >? 512 then
    match q_token s with
    | None => Err TypeError                          (* list(None) *)
    | Some t => Ok (t ++ [Some (of_int m)])
    end
  else Ok t.

(** 409-492 pageGenerator: the rows, and the state or the exception raised after them.
    [select] runs the query with its condition, if any *)
Variable select : option (list token) -> list R -> list R.
Definition pageGenerator (setNextPage : bool) (table : list R) (s : sqlpage) : list R * result sqlpage :=
  if match q_top s with Some t => t =? 0 | None => false end then ([], Ok s)
  else
    match match q_token s with
          | None => Ok None
          | Some t => c <- WhereSkiptokenClause t ;; Ok (Some c)
          end with
    | Err e => ([], Err e)
    | Ok c =>
        let '(l, e) := page_loop (select c table) (q_skip s) (q_top s) (q_topmax s) in
        (l,
         match e with
         | NoMore => Ok (if setNextPage then mkSql (Some 0) (Some 0) (q_token s) (q_next s) (q_topmax s) else s)
         | AtTopmax r =>
             t <- next_token s match q_topmax s with Some m => m | None => 0 end r ;;
             Ok (if setNextPage then mkSql (q_top s) (Some 0) (Some t) (Some t) (q_topmax s)
                 else mkSql (q_top s) (q_skip s) (q_token s) (Some t) (q_topmax s))
         | AtTop =>
             Ok (if setNextPage then
                   let t := match q_top s with Some t => t | None => 0 end in
                   mkSql (q_top s) (Some (match q_skip s with Some n => n + t | None => t end))
                     (q_token s) (q_next s) (q_topmax s)
                 else s)
         end)
    end.

(** Pages with setNextPage; the last component is the exception, if any *)
Fixpoint sql_pages (T : nat -> list R) (n : nat) (s : sqlpage) (k : nat) : list (list R) * option exn :=
  match k with
  | O => ([], None)
  | S k' =>
      match pageGenerator true (T n) s with
      | (l, Err e) => ([l], Some e)
      | (l, Ok s) => let '(ls, e) := sql_pages T (S n) s k' in (l :: ls, e)
      end
  end.
(** Requests with the next token in a new collection (server.py 489-500, 670-684), until there is
    none *)
Fixpoint sql_requests (topmax : option Z) (T : nat -> list R) (n : nat) (tok : option (list (option V))) (k : nat)
  : list (list R) * option exn :=
  match k with
  | O => ([], None)
  | S k' =>
      match SetPage None None tok topmax with
      | Err e => ([], Some e)
      | Ok s =>
          match pageGenerator false (T n) s with
          | (l, Err e) => ([l], Some e)
          | (l, Ok s) =>
              match NextSkipToken s with
              | None => ([l], None)
              | Some t => let '(ls, e) := sql_requests topmax T (S n) (Some t) k' in (l :: ls, e)
              end
          end
      end
  end.
End Sql.
