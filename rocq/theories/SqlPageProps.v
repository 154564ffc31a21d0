(** C140, C142: pages of a collection in a SQL database while the table changes. *)
From Coq Require Import Lia Zify Permutation Sorted.
From Verif Require Import Py Iso HttpCore HttpSpec HttpProofs3 OdPage OdPageSpec SqlPage SqlPageSpec SqlPageProofs SqlPageProofs2 SqlPageProofs3.
Open Scope Z_scope.
Open Scope list_scope.

Section Props.
Context {R V : Type}.
Variable vals : R -> list (option V).
Variable vcmp : V -> V -> comparison.
Variable nulls_first : bool.
Variable dirs : list bool.
Variable as_int : V -> option Z.
Variable of_int : Z -> V.
Variable size_of : V -> Z.
(** The values have a total order; there is at least one column; pages have [m] rows *)
Hypothesis P : preorder vcmp.
Hypothesis Anti : forall a b, vcmp a b = Eq -> a = b.
Hypothesis Dirs : dirs <> [].
Variable m : Z.
Hypothesis Hm : 1 <= m.
(** No row has values of more than 512 characters in its columns *)
Definition short_values (table : list R) : Prop := forall r, In r table -> token_length size_of (vals r) <= 512.
(** A new collection with TopMax(m) *)
Definition first_page : sqlpage := mkSql (V := V) None (Some 0) None None (Some m).

(** * C140: whatever other clients do to the table between the pages *)
Theorem C140_pages_partial (T : history R) (k : nat) :
  (forall n, good_table vals dirs (T n)) -> (forall n, short_values (T n)) ->
  exists ls, sql_pages vals dirs of_int size_of (database vals vcmp nulls_first dirs) T 0 first_page k = (ls, None) /\
    length ls = k /\
    (forall i l, nth_error ls i = Some l -> incl l (T i) /\ (length l <= Z.to_nat m)%nat) /\
    StronglySorted (fun a b => precedes vcmp dirs (vals a) (vals b)) (concat ls) /\
    forall r, always T r -> In r (concat ls) \/
      (Forall (fun l => length l = Z.to_nat m) ls /\ forall r', In r' (concat ls) -> precedes vcmp dirs (vals r') (vals r)).
Proof.
  intros G S. set (A := awalk vals vcmp nulls_first dirs m T 0 None k).
  exists (A ++ repeat [] (k - length A)). split.
  { apply pages_walk; auto; exact I. }
  assert (LA : (length A <= k)%nat).
  { unfold A. generalize 0%nat (@None (list (option V))). clear. induction k as [|k IH]; intros n t; cbn [awalk length]; [lia|].
    destruct (nth_error _ _); cbn [length]; [specialize (IH (Datatypes.S n) (Some (vals r)))|]; lia. }
  assert (C : concat (A ++ repeat [] (k - length A)) = concat A).
  { rewrite concat_app. replace (concat (repeat [] (k - length A))) with (@nil R); [apply app_nil_r|].
    symmetry. generalize (k - length A)%nat. clear. induction n as [|n IH]; [reflexivity|]. exact IH. }
  split; [rewrite app_length, repeat_length; lia|]. split; [|rewrite C; split].
  - intros i l H. destruct (Nat.lt_ge_cases i (length A)) as [Hi|Hi].
    + rewrite nth_error_app1 in H by exact Hi. apply (walk_pages vals vcmp nulls_first P Anti dirs Dirs as_int of_int size_of m Hm T G S k 0 None I i l H).
    + rewrite nth_error_app2 in H by exact Hi. apply nth_error_In in H. apply repeat_spec in H. subst l. split; [intros x []|cbn; lia].
  - apply (walk_sorted vals vcmp nulls_first P Anti dirs Dirs as_int of_int m Hm T G); try assumption. exact I.
  - intros r Hr. destruct (walk_complete vals vcmp nulls_first P Anti dirs Dirs as_int of_int size_of m Hm T G S k 0 None I r Hr I) as [H|(H1 & H2 & H3)]; [left; exact H|right].
    fold A in H1, H2, H3. rewrite H1, Nat.sub_diag. cbn [repeat]. rewrite app_nil_r. split; assumption.
Qed.
(** The same for requests with the token of each response: they end with a response without a
    token, or all of the responses are full *)
Theorem C140_requests_partial (T : history R) (k : nat) :
  (forall n, good_table vals dirs (T n)) -> (forall n, short_values (T n)) ->
  exists ls, sql_requests vals dirs as_int of_int size_of (database vals vcmp nulls_first dirs) (Some m) T 0 None k = (ls, None) /\
    (forall i l, nth_error ls i = Some l -> incl l (T i) /\ (length l <= Z.to_nat m)%nat) /\
    StronglySorted (fun a b => precedes vcmp dirs (vals a) (vals b)) (concat ls) /\
    forall r, always T r -> In r (concat ls) \/
      (length ls = k /\ Forall (fun l => length l = Z.to_nat m) ls /\ forall r', In r' (concat ls) -> precedes vcmp dirs (vals r') (vals r)).
Proof.
  intros G S. set (A := awalk vals vcmp nulls_first dirs m T 0 None k). exists A. split.
  { apply requests_walk; auto; exact I. }
  split; [|split].
  - intros i l H. apply (walk_pages vals vcmp nulls_first P Anti dirs Dirs as_int of_int size_of m Hm T G S k 0 None I i l H).
  - apply (walk_sorted vals vcmp nulls_first P Anti dirs Dirs as_int of_int m Hm T G); try assumption. exact I.
  - intros r Hr. apply (walk_complete vals vcmp nulls_first P Anti dirs Dirs as_int of_int size_of m Hm T G S k 0 None I r Hr I).
Qed.

(** * C142: a table that does not change *)
(** The pages together are the rows in the order of the columns, each once *)
Theorem C142_pages (L : list R) (k : nat) : good_table vals dirs L -> short_values L -> (length L < k)%nat ->
  exists ls, sql_pages vals dirs of_int size_of (database vals vcmp nulls_first dirs) (fun _ => L) 0 first_page k = (ls, None) /\
    Permutation (concat ls) L /\ StronglySorted (fun a b => precedes vcmp dirs (vals a) (vals b)) (concat ls).
Proof.
  intros G S Hk. destruct (C140_pages_partial (fun _ => L) k (fun _ => G) (fun _ => S)) as (ls & E & _ & _ & SS & _).
  exists ls. split; [exact E|]. split; [|exact SS].
  rewrite (pages_walk vals vcmp nulls_first P Anti dirs Dirs as_int of_int size_of m Hm (fun _ => L) (fun _ => G) (fun _ => S) k 0 first_page None I) in E by (reflexivity || (right; reflexivity)).
  injection E as <-. rewrite concat_app.
  assert (C : forall n, concat (repeat [] n) = @nil R) by (clear; induction n as [|n IH]; [reflexivity|exact IH]). rewrite C.
  rewrite app_nil_r, (walk_all vals vcmp nulls_first P Anti dirs Dirs as_int of_int size_of m Hm L k G S Hk).
  unfold database. rewrite sort_perm. clear. induction L as [|x L IH]; cbn [filter]; [constructor|now constructor].
Qed.
Theorem C142_requests (L : list R) (k : nat) : good_table vals dirs L -> short_values L -> (length L < k)%nat ->
  exists ls, sql_requests vals dirs as_int of_int size_of (database vals vcmp nulls_first dirs) (Some m) (fun _ => L) 0 None k = (ls, None) /\
    Permutation (concat ls) L /\ StronglySorted (fun a b => precedes vcmp dirs (vals a) (vals b)) (concat ls).
Proof.
  intros G S Hk. destruct (C140_requests_partial (fun _ => L) k (fun _ => G) (fun _ => S)) as (ls & E & _ & SS & _).
  exists ls. split; [exact E|]. split; [|exact SS].
  rewrite (requests_walk vals vcmp nulls_first P Anti dirs Dirs as_int of_int size_of m Hm (fun _ => L) (fun _ => G) (fun _ => S) k 0 None I) in E.
  injection E as <-. rewrite (walk_all vals vcmp nulls_first P Anti dirs Dirs as_int of_int size_of m Hm L k G S Hk).
  unfold database. rewrite sort_perm. clear. induction L as [|x L IH]; cbn [filter]; [constructor|now constructor].
Qed.
(** One page with $top, $skip, a token and TopMax: the rows after the token in the order of the
    columns, without those skipped, as many as the limits allow *)
Theorem C142_page (L : list R) (b : bool) (top topmax : option Z) (skip off : Z) (tok from : option (list (option V))) :
  good_table vals dirs L -> page_token dirs as_int tok from off -> 0 <= skip + off ->
  (forall t, top = Some t -> 0 <= t) -> (forall n, topmax = Some n -> 1 <= n) ->
  exists s rows, SetPage dirs as_int top (Some skip) tok topmax = Ok s /\
    (forall r, In r rows <-> In r L /\ forall t, from = Some t -> precedes vcmp dirs t (vals r)) /\
    StronglySorted (fun a b => precedes vcmp dirs (vals a) (vals b)) rows /\
    fst (pageGenerator vals dirs of_int size_of (database vals vcmp nulls_first dirs) b L s) =
      take_opt top (take_opt topmax (skipn (Z.to_nat (skip + off)) rows)).
Proof.
  intros G Ht Hs Htop Hm'. destruct (page_state vcmp Anti dirs as_int of_int size_of top skip tok from off topmax Ht) as [Tk St].
  exists (mkSql top (Some (skip + off)) from None topmax), (SqlPageProofs2.rows vals vcmp nulls_first dirs from L).
  split; [exact St|]. split; [|split].
  - intros r. rewrite (rows_In vals vcmp nulls_first P Anti dirs Dirs from L r G Tk). unfold after.
    destruct from as [t|]; split; intros [H1 H2]; (split; [exact H1|]); [intros t' [= <-]; exact H2|now apply H2|discriminate|exact I].
  - apply (rows_sorted vals vcmp nulls_first P Anti dirs Dirs from L G Tk).
  - rewrite (page_rows vals vcmp nulls_first Anti dirs Dirs as_int of_int size_of b L (mkSql top (Some (skip + off)) from None topmax)); cbn [q_top q_skip q_topmax q_token]; auto.
    + destruct top; auto.
    + destruct topmax; cbn [positive]; auto.
Qed.
(** Pages of $top rows each: [k] of them are the first [k] times $top rows *)
Theorem C142_tops (L : list R) (t s : Z) (k : nat) : good_table vals dirs L -> 1 <= t -> 0 <= s ->
  exists rows ls, Permutation rows L /\ StronglySorted (fun a b => precedes vcmp dirs (vals a) (vals b)) rows /\
    sql_pages vals dirs of_int size_of (database vals vcmp nulls_first dirs) (fun _ => L) 0 (mkSql (Some t) (Some s) None None None) k = (ls, None) /\
    concat ls = firstn (k * Z.to_nat t) (skipn (Z.to_nat s) rows).
Proof.
  intros G Ht Hs. destruct (tops vals vcmp nulls_first Anti dirs Dirs as_int of_int size_of L t Ht k 0 s None Hs) as (ls & E & C).
  exists (database vals vcmp nulls_first dirs None L), ls. split; [|split; [|split; assumption]].
  - unfold database. rewrite sort_perm. replace (filter (fun _ => true) L) with L; [reflexivity|]. clear. induction L as [|x l IH]; [reflexivity|]. cbn [filter]. now rewrite <- IH.
  - apply (rows_sorted vals vcmp nulls_first P Anti dirs Dirs None L G I).
Qed.
(** The token after a full page whose last row has long values: the token of the page and the size
    of the page; C142_page says what it stands for *)
Theorem C142_offset (L : list R) (t : list (option V)) (r : R) (before rest : list R) :
  good_table vals dirs L -> length t = length dirs -> ~ In None t ->
  (forall x, In x (before ++ r :: rest) <-> In x L /\ precedes vcmp dirs t (vals x)) ->
  StronglySorted (fun a b => precedes vcmp dirs (vals a) (vals b)) (before ++ r :: rest) ->
  length before = (Z.to_nat m - 1)%nat -> 512 < token_length size_of (vals r) ->
  exists s s', SetPage dirs as_int None (Some 0) (Some t) (Some m) = Ok s /\
    pageGenerator vals dirs of_int size_of (database vals vcmp nulls_first dirs) false L s = (before ++ [r], Ok s') /\
    NextSkipToken s' = Some (t ++ [Some (of_int m)]).
Proof.
  intros G Hl Hn E S Lb Lr.
  assert (Tk : token_ok dirs (Some t)) by (split; assumption).
  assert (X : SqlPageProofs2.rows vals vcmp nulls_first dirs (Some t) L = before ++ r :: rest).
  { destruct (rows_sorted vals vcmp nulls_first P Anti dirs Dirs (Some t) L G Tk) as [S' _].
    apply (SS_eq _ _ _ S' S).
    - intros x. rewrite (rows_In vals vcmp nulls_first P Anti dirs Dirs (Some t) L x G Tk), E. reflexivity.
    - intros x y Hx Hy H1 H2. apply (rows_In vals vcmp nulls_first P Anti dirs Dirs (Some t) L x G Tk) in Hx as [Hx _].
      apply (rows_In vals vcmp nulls_first P Anti dirs Dirs (Some t) L y G Tk) in Hy as [Hy _].
      destruct G as (_ & G & _). apply (precedes_irrefl vcmp P dirs (vals x)).
      apply (precedes_trans vcmp nulls_first P Anti dirs (vals x) (vals y) (vals x)); auto; apply G; assumption. }
  assert (N : nth_error (SqlPageProofs2.rows vals vcmp nulls_first dirs (Some t) L) (Z.to_nat m - 1) = Some r).
  { rewrite X, nth_error_app2 by lia. rewrite Lb, Nat.sub_diag. reflexivity. }
  assert (D := long_end vals vcmp nulls_first Anti dirs Dirs as_int of_int size_of false L t m r None Tk Hm N Lr).
  assert (F := page_rows vals vcmp nulls_first Anti dirs Dirs as_int of_int size_of false L (mkSql None (Some 0) (Some t) None (Some m)) Tk (Z.le_refl 0) I Hm).
  cbn [q_top q_topmax q_skip q_token take_opt Z.to_nat skipn] in F. rewrite X in F.
  replace (before ++ r :: rest) with ((before ++ [r]) ++ rest) in F by (now rewrite <- app_assoc).
  replace (Z.to_nat m) with (length (before ++ [r]) + 0)%nat in F by (rewrite app_length; cbn [length]; lia).
  rewrite firstn_app_2 in F. cbn [firstn] in F. rewrite app_nil_r in F.
  destruct (page_state vcmp Anti dirs as_int of_int size_of None 0 (Some t) (Some t) 0 (Some m)) as [_ St]; [split; [exact Hl|split; [exact Hn|left; now split]]|].
  exists (mkSql None (Some 0) (Some t) None (Some m)). eexists. split; [exact St|]. split.
  - rewrite (surjective_pairing (pageGenerator _ _ _ _ _ false L _)). rewrite F, D. reflexivity.
  - cbn [NextSkipToken q_next]. destruct t; reflexivity.
Qed.
End Props.

(** ** What is not so *)
(** Rows: a column that may be NULL, then the key *)
Definition row := (option Z * Z)%type.
Definition row_vals (r : row) : list (option Z) := [fst r; Some (snd r)].
Definition row_pages m T k :=
  sql_pages row_vals [false; false] (fun z => z) (fun _ => 0) (database row_vals Z.compare true [false; false]) T 0 (first_page m) k.
(** With NULLs rows are lost although nothing changes *)
Theorem C140_null_refuted : ~ forall (L : list row) (k : nat), NoDup L -> (forall r r', In r L -> In r' L -> row_vals r = row_vals r' -> r = r') ->
  (length L < k)%nat -> incl L (concat (fst (row_pages 1 (fun _ => L) k))).
Proof.
  intros H. specialize (H [(None, 1); (None, 2); (Some 5, 3)] 4%nat).
  assert (X : incl [(None, 1); (None, 2); (Some 5, 3)] [(None, 1) : row]).
  { apply H; [| |cbn; lia].
    - repeat constructor; cbn; intuition discriminate.
    - intros r r'. cbn. intuition (subst; cbn in *; (reflexivity || discriminate)). }
  specialize (X (None, 2) (or_intror (or_introl eq_refl))). destruct X as [X|[]]. discriminate.
Qed.
(** If the values of the last row of the first page are longer than 512 characters the walk ends
    with an exception *)
Theorem C140_long_refuted : ~ forall (size_of : Z -> Z) (L : list Z) (k : nat),
  good_table (fun z => [Some z]) [false] L ->
  snd (sql_pages (fun z => [Some z]) [false] (fun z => z) size_of (database (fun z => [Some z]) Z.compare true [false]) (fun _ => L) 0 (first_page 1) k) = None.
Proof.
  intros H. specialize (H (fun _ => 600) [7] 1%nat). discriminate H. split; [|split].
  - repeat constructor. intros [].
  - intros r [<-|[]]. split; [reflexivity|]. intros [X|[]]. discriminate.
  - intros r r' [<-|[]] [<-|[]] _. reflexivity.
Qed.
(** A later page of long values is given again and again *)
Theorem C140_repeat_refuted : ~ forall (size_of : Z -> Z) (L : list Z) (k : nat),
  good_table (fun z => [Some z]) [false] L ->
  NoDup (concat (fst (sql_pages (fun z => [Some z]) [false] (fun z => z) size_of (database (fun z => [Some z]) Z.compare true [false]) (fun _ => L) 0 (first_page 1) k))).
Proof.
  intros H. specialize (H (fun z => if z =? 7 then 1 else 600) [7; 8; 9] 3%nat).
  assert (X : NoDup [7; 8; 8]).
  { apply H. split; [|split].
    - repeat constructor; cbn; intuition lia.
    - intros r _. split; [reflexivity|]. intros [X|[]]. discriminate.
    - intros r r' _ _ [= X]. exact X. }
  apply NoDup_cons_iff in X as [_ X]. apply NoDup_cons_iff in X as [X _]. apply X. now left.
Qed.
(** Collections in memory count entities: a deletion between pages makes them pass one over *)
Theorem C140_memory_refuted : ~ forall (T : history Z) (m : Z) (k : nat) (e : Z), 1 <= m ->
  always T e -> (forall n, (length (T n) < k)%nat) ->
  In e (concat (OdPage.pages (fun n => OdPage.itervalues Z.compare true [] (fun _ => true) (fun e => e) (T n)) 0 (OdPage.TopMax (Some m) OdPage.new_collection) k)).
Proof.
  intros H. specialize (H (fun n => match n with O => [1; 2; 3; 4] | _ => [2; 3; 4] end) 2 5%nat 3 ltac:(lia)).
  assert (X : In 3 [1; 2; 4]).
  { apply H; intros [|n]; cbn; (lia || tauto). }
  cbn in X. lia.
Qed.

(** ** Examples *)
Definition demo_row := (Z * Z)%type.
Definition demo_vals (r : demo_row) : list (option Z) := [Some (fst r); Some (snd r)].
Definition demo_T : history demo_row := fun n =>
  match n with
  | O => [(3, 1); (5, 2); (5, 3); (9, 4)]
  | 1%nat => [(5, 3); (9, 4); (3, 1); (4, 6)]
  | _ => [(5, 3); (3, 1); (1, 7)]
  end.
Example ex_C140_good n : good_table demo_vals [true; false] (demo_T n) /\ short_values demo_vals (fun _ => 0) (demo_T n).
Proof.
  split; [split; [|split]|].
  - destruct n as [|[|n]]; repeat constructor; cbn; intuition discriminate.
  - intros r _. split; [reflexivity|]. intros [X|[X|[]]]; discriminate.
  - intros [a b] [c d] _ _ [= -> ->]. reflexivity.
  - intros r _. cbn. lia.
Qed.
Example ex_C140_order : preorder Z.compare /\ forall a b, Z.compare a b = Eq -> a = b.
Proof. split; [apply Z_preorder|apply Z.compare_eq]. Qed.
Example ex_C140_always : always demo_T (5, 3) /\ always demo_T (3, 1).
Proof. split; intros [|[|n]]; cbn; tauto. Qed.
(** Descending by the first column, pages of two *)
Example ex_C140_pages : sql_pages demo_vals [true; false] (fun z => z) (fun _ => 0) (database demo_vals Z.compare true [true; false]) demo_T 0 (first_page 2) 4 =
  ([[(9, 4); (5, 2)]; [(5, 3); (4, 6)]; [(3, 1); (1, 7)]; []], None).
Proof. reflexivity. Qed.
Example ex_C140_requests : sql_requests demo_vals [true; false] (fun z => Some z) (fun z => z) (fun _ => 0) (database demo_vals Z.compare true [true; false]) (Some 2) demo_T 0 None 9 =
  ([[(9, 4); (5, 2)]; [(5, 3); (4, 6)]; [(3, 1); (1, 7)]; []], None).
Proof. reflexivity. Qed.
Example ex_C142 : sql_requests demo_vals [true; false] (fun z => Some z) (fun z => z) (fun _ => 0) (database demo_vals Z.compare true [true; false]) (Some 3) (fun _ => demo_T 0%nat) 0 None 5 =
  ([[(9, 4); (5, 2); (5, 3)]; [(3, 1)]], None).
Proof. reflexivity. Qed.

Example ex_C142_token : page_token [true; false] (fun z : Z => Some z) (Some [Some 9; Some 4; Some 1]) (Some [Some 9; Some 4]) 1.
Proof. split; [reflexivity|]. split; [intros [X|[X|[]]]; discriminate|]. right. exists 1. now split. Qed.
Example ex_C142_page : exists s, SetPage [true; false] (fun z : Z => Some z) (Some 5) (Some 1) (Some [Some 9; Some 4; Some 1]) (Some 3) = Ok s /\
  fst (pageGenerator demo_vals [true; false] (fun z => z) (fun _ => 0) (database demo_vals Z.compare true [true; false]) false (demo_T 0%nat) s) = [(3, 1)].
Proof. eexists. split; reflexivity. Qed.
Example ex_C142_tops : sql_pages demo_vals [true; false] (fun z => z) (fun _ => 0) (database demo_vals Z.compare true [true; false]) (fun _ => demo_T 0%nat) 0 (mkSql (Some 2) (Some 1) None None None) 3 =
  ([[(5, 2); (5, 3)]; [(3, 1)]; []], None).
Proof. reflexivity. Qed.
Example ex_C142_offset : exists s s', SetPage [true; false] (fun z : Z => Some z) None (Some 0) (Some [Some 9; Some 4]) (Some 2) = Ok s /\
  pageGenerator demo_vals [true; false] (fun z => z) (fun _ => 300) (database demo_vals Z.compare true [true; false]) false (demo_T 0%nat) s = ([(5, 2); (5, 3)], Ok s') /\
  NextSkipToken s' = Some [Some 9; Some 4; Some 2].
Proof. eexists. eexists. split; [reflexivity|split; reflexivity]. Qed.

Print Assumptions C140_pages_partial.
Print Assumptions C140_requests_partial.
Print Assumptions C140_null_refuted.
Print Assumptions C140_long_refuted.
Print Assumptions C140_repeat_refuted.
Print Assumptions C140_memory_refuted.
Print Assumptions C142_pages.
Print Assumptions C142_requests.
Print Assumptions C142_page.
Print Assumptions C142_tops.
Print Assumptions C142_offset.
