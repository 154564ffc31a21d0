(** The order of the query of a page (SqlExpr.v). *)
From Coq Require Import Lia Arith.
From Verif Require Import Py Iso Dec OdExpr OdEval OdEvalSpec OdEvalProps SqlExpr SqlExprSpec SqlExprSpec2 SqlExprProofs SqlExprProofs2 SqlExprProofs3
  SqlExprProofs4 SqlExprProofs5 SqlExprProofs6 SqlExprProofs7 SqlExprProps.
Open Scope Z_scope.
Open Scope list_scope.

Section Props.
Context {O : Type}.
Variable other : edm_type -> pyv -> result O.
Variable sqlite qualifyNames : bool.
Variable tableName : str.
Variable mangledNames : list str -> option str.
Variable entityType : list (str * pdef).
Notation V := (@sqlv O).
Notation Where := (WhereClause other sqlite qualifyNames tableName mangledNames entityType).
Notation Page := (page_query other sqlite qualifyNames tableName mangledNames entityType).
Notation Supported := (supported (param_of other) mangledNames entityType).

(** [s] is the condition a filter [e] is translated to, [qs] the parameters after it *)
Definition condition (e : expr ext) (ps : list V) (s : str) (qs : list V) : Prop :=
  Where None (Some e) None ps = Ok (lit " WHERE (" ++ s ++ lit ")", qs).
(** The columns an order adds: its expressions, named, and the names for which there is no expression *)
Inductive order_columns : list (expr ext) -> list (str * bool) -> list V -> list str -> list V -> Prop :=
| oc_names names ps : order_columns [] names ps (map fst names) ps
| oc_expr e es n desc names ps s qs cols rs :
    condition e ps s qs -> order_columns es names qs cols rs -> order_columns (e :: es) ((n, desc) :: names) ps ((s ++ lit " AS " ++ n) :: cols) rs.
(** What follows ORDER BY *)
Inductive direction : bool -> str -> Prop :=
| ascending : direction false (lit " ASC")
| descending : direction true (lit " DESC").
Inductive order_text : list (str * bool) -> str -> Prop :=
| ot_last n desc d : direction desc d -> order_text [(n, desc)] (n ++ d)
| ot_more n desc d names s : direction desc d -> order_text names s -> order_text ((n, desc) :: names) (n ++ d ++ lit ", " ++ s).

Lemma condition_inv e ps s qs x : Supported e -> SQLExpression other sqlite qualifyNames tableName mangledNames entityType e ps QAnd = Ok (x, qs) -> s = percent_s x -> condition e ps s qs.
Proof.
  intros S E ->. destruct (C162_supported other sqlite qualifyNames tableName mangledNames entityType e ps S) as (w & ps' & W). unfold condition. unfold WhereClause in *. cbn [bind] in *. rewrite E in W |- *. cbn [bind app] in *.
  destruct x as [x|]; [|discriminate]. cbn [joined bind app sjoin percent_s] in *. reflexivity.
Qed.
Lemma cols_inv es : Forall Supported es -> forall names ps cols qs, OrderByCols other sqlite qualifyNames tableName mangledNames entityType es names ps = Ok (cols, qs) -> order_columns es names ps cols qs.
Proof.
  induction 1 as [|e es S F IH]; intros names ps cols qs; cbn [OrderByCols].
  - intros E. injection E as <- <-. constructor.
  - destruct names as [|[n desc] names]; [discriminate|]. destruct (SQLExpression _ _ _ _ _ _ _ _ _) as [[x ps1]|] eqn:X; [|discriminate]. cbn [bind].
    destruct (OrderByCols _ _ _ _ _ _ _ _ _) as [[l ps2]|] eqn:Y; [|discriminate]. cbn [bind]. intros E. injection E as <- <-. econstructor; [eapply condition_inv; eauto|now apply IH].
Qed.
Lemma direction_of desc : direction desc (lit (if desc then " DESC" else " ASC")%string).
Proof. destruct desc; constructor. Qed.
Lemma order_text_of names : names <> [] -> exists s, OrderByClause names = lit " ORDER BY " ++ s /\ order_text names s.
Proof.
  intros N. unfold OrderByClause. destruct names as [|p names]; [easy|]. eexists. split; [reflexivity|]. clear N. revert p. induction names as [|q names IH]; intros [n desc].
  - cbn [map sjoin fst snd]. constructor. apply direction_of.
  - change (sjoin (lit ", ") (map (fun p : str * bool => fst p ++ lit (if snd p then " DESC" else " ASC")%string) ((n, desc) :: q :: names)))
      with ((n ++ lit (if desc then " DESC" else " ASC")%string) ++ lit ", " ++ sjoin (lit ", ") (map (fun p : str * bool => fst p ++ lit (if snd p then " DESC" else " ASC")%string) (q :: names))).
    rewrite <- app_assoc. apply ot_more; [apply direction_of|apply IH].
Qed.

(** C230: a page is ordered by what it was asked to be ordered by *)
Theorem C230_order columns o names f t text ps : Forall Supported o -> Page columns o names f t = Ok (text, ps) ->
  exists cols qs w, order_columns o names [] cols qs /\ Where None f (skip_of names t) qs = Ok (w, ps) /\
    (names = [] -> text = lit "SELECT " ++ sjoin (lit ", ") (columns ++ cols) ++ lit " FROM " ++ tableName ++ w) /\
    (names <> [] -> exists s, order_text names s /\ text = lit "SELECT " ++ sjoin (lit ", ") (columns ++ cols) ++ lit " FROM " ++ tableName ++ w ++ lit " ORDER BY " ++ s).
Proof.
  intros F. unfold page_query. destruct (OrderByCols _ _ _ _ _ _ _ _ _) as [[cols qs]|] eqn:C; [|discriminate]. cbn [bind].
  match goal with |- context [WhereClause _ _ _ _ _ _ None f ?k qs] => change k with (skip_of names t) end.
  destruct (Where None f (skip_of names t) qs) as [[w ps']|] eqn:W; [|discriminate]. cbn [bind]. intros E. injection E as <- <-.
  exists cols, qs, w. split; [now apply cols_inv|]. split; [exact W|]. split.
  - intros ->. unfold OrderByClause. now rewrite app_nil_r.
  - intros N. destruct (order_text_of names N) as (s & -> & H). exists s. auto.
Qed.
Theorem C230_answered columns o names f : Forall Supported o -> match f with Some e => Supported e | None => True end -> (length o <= length names)%nat ->
  exists text ps, Page columns o names f None = Ok (text, ps).
Proof.
  intros F S L. unfold page_query. assert (X : forall ps, exists cols qs, OrderByCols other sqlite qualifyNames tableName mangledNames entityType o names ps = Ok (cols, qs)).
  { revert names L. induction F as [|e es Se F IH]; intros names L ps; cbn [OrderByCols]; [eauto|]. destruct names as [|[n d] names]; [cbn in L; lia|].
    destruct (C162_supported other sqlite qualifyNames tableName mangledNames entityType e ps Se) as (w & ps' & W). unfold WhereClause in W. cbn [bind] in W.
    destruct (SQLExpression _ _ _ _ _ _ _ _ _) as [[x ps1]|] eqn:X; [|discriminate]. cbn [bind]. destruct (IH names ltac:(cbn in L; lia) ps1) as (cols & qs & ->). cbn [bind]. eauto. }
  destruct (X []) as (cols & qs & ->). cbn [bind]. destruct f as [e|].
  - destruct (C162_supported other sqlite qualifyNames tableName mangledNames entityType e qs S) as (w & ps' & ->). cbn [bind]. eauto.
  - cbn. eauto.
Qed.
End Props.

Definition demo_page := page_query no_other true false demo_table demo_names demo_type [lit "n"] [f1; n_] [(lit "o_1", true); (lit "o_2", false); (lit "k", false)] (Some f1) None.
Example C230_ex : demo_page = Ok (lit "SELECT n, " ++ lit """n"" > ? AND ""s"" LIKE ? || '%'" ++ lit " AS o_1, ""n"" AS o_2, k FROM ""Demos"" WHERE " ++ f1_text ++ lit " ORDER BY o_1 DESC, o_2 ASC, k ASC",
  [VInt 5; VText (lit "a "); VInt 5; VText (lit "a ")]).
Proof. vm_compute. reflexivity. Qed.
Example C230_meets : Forall (supported (param_of no_other) demo_names demo_type) [f1; n_].
Proof.
  constructor; [exact C162_ex|]. constructor; [|constructor]. apply (Y_property _ _ _ _ [lit "n"]); [constructor|constructor; reflexivity|discriminate].
Qed.
Print Assumptions C230_order.
Print Assumptions C230_answered.
