(** Lemmas for C129-C131: expressions, rules, declarations and whole items. *)
From Coq Require Import Permutation Sorted.
From Verif Require Import Py Iso Dec XmlUtils XmlSpec XmlProofs XmlProofs2 MigWrite MigWriteSpec MigWriteProofs MigWriteProofs2.

(** *** Expressions *)
Section ExprInd.
  Variable P : expr -> Prop.
  Hypothesis H_bin : forall n l r, P l -> P r -> P (BinaryOperator n l r).
  Hypothesis H_multi : forall n l, Forall P l -> P (MultiOperator n l).
  Hypothesis H_not : forall e, P e -> P (NotOperator e).
  Hypothesis H_custom : forall c l, Forall P l -> P (CustomOperator c l).
  Hypothesis H_match : forall a b l r, P l -> P r -> P (StringMatchOperator a b l r).
  Hypothesis H_var : forall i, P (VariableOperator i).
  Hypothesis H_index : forall e n, P e -> P (IndexOperator e n).
  Hypothesis H_base : forall t v, P (BaseValueOperator t v).
  Hypothesis H_isnull : forall e, P e -> P (IsNullOperator e).
  Hypothesis H_null : P NullOperator.
  Hypothesis H_inside : forall e s c, P e -> P (InsideOperator e s c).
  Fixpoint expr_all (e : expr) : P e :=
    let fl := fix go (l : list expr) : Forall P l :=
      match l with [] => Forall_nil P | x :: l' => Forall_cons x (expr_all x) (go l') end in
    match e with
    | BinaryOperator n l r => H_bin n l r (expr_all l) (expr_all r)
    | MultiOperator n l => H_multi n l (fl l)
    | NotOperator e => H_not e (expr_all e)
    | CustomOperator c l => H_custom c l (fl l)
    | StringMatchOperator a b l r => H_match a b l r (expr_all l) (expr_all r)
    | VariableOperator i => H_var i
    | IndexOperator e n => H_index e n (expr_all e)
    | BaseValueOperator t v => H_base t v
    | IsNullOperator e => H_isnull e (expr_all e)
    | NullOperator => H_null
    | InsideOperator e s c => H_inside e s c (expr_all e)
    end.
End ExprInd.

Definition write_exprs : list expr -> str :=
  fix go l := match l with [] => [] | x :: l' => WriteExpr x ++ go l' end.
Lemma exprs_marked l : Forall (fun e => clean (expr_tree 32 e) -> marked [expr_tree 32 e] (WriteExpr e)) l ->
  allp clean (map (expr_tree 32) l) -> marked (map (expr_tree 32) l) (write_exprs l).
Proof.
  induction 1 as [|e l He _ IH]; intros H; [exact marked_nil|]. destruct H as [H1 H2].
  change (write_exprs (e :: l)) with (WriteExpr e ++ write_exprs l).
  apply (marked_app [_] _ (map (expr_tree 32) l)); [apply He, H1|apply IH, H2].
Qed.
Lemma two_marked a b x y : marked [a] x -> marked [b] y -> marked [a; b] (x ++ y).
Proof. intros. apply (marked_app [a] x [b] y); assumption. Qed.

Theorem WriteExpr_marked : forall e, clean (expr_tree 32 e) -> marked [expr_tree 32 e] (WriteExpr e).
Proof.
  apply (expr_all (fun e => clean (expr_tree 32 e) -> marked [expr_tree 32 e] (WriteExpr e))).
  - intros n l r IHl IHr (Hn & _ & Hl & Hr & _). cbn [WriteExpr expr_tree]. rewrite (app_assoc (WriteExpr l)).
    eapply (marked_elem n [] _ _ _ []); [exact Hn|apply keys_nil|reflexivity|apply atts_nil|].
    apply two_marked; [apply IHl, Hl|apply IHr, Hr].
  - intros n l IH (Hn & _ & Hl). cbn [WriteExpr expr_tree].
    eapply (marked_elem n [] _ _ _ []); [exact Hn|apply keys_nil|reflexivity|apply atts_nil|].
    apply exprs_marked; assumption.
  - intros e IH (Hn & _ & He & _). cbn [WriteExpr expr_tree].
    eapply (marked_elem _ [] _ _ _ []); [nm|apply keys_nil|reflexivity|apply atts_nil|apply IH, He].
  - intros c l IH (Hn & Ha & Hl). cbn [WriteExpr expr_tree].
    eapply marked_elem; [nm|key_solve|reflexivity|att_solve|]. apply exprs_marked; assumption.
  - intros a b l r IHl IHr (Hn & _ & Hl & Hr & _). cbn [WriteExpr expr_tree]. rewrite (app_assoc (WriteExpr l)).
    eapply marked_elem; [nm|key_solve|reflexivity| |].
    + change (bool_str a) with (truth a). change (bool_str b) with (truth b).
      change (32 :: put "caseSensitive" (truth a) ++ put "substring" (truth b))
        with (([32; 32] ++ lit "caseSensitive" ++ 61 :: 34 :: truth a ++ [34]) ++ put "substring" (truth b)).
      apply atts_app; [|att_solve].
      pose proof (truth_plain a) as Hp.
      apply atts_lead; [repeat (constructor; [left; reflexivity|]); constructor|discriminate|
        apply lit_ascii_b; reflexivity|nm|apply plain_reads, Hp|apply plain_text, Hp|apply plain_no_quote, Hp|apply plain_ascii, Hp].
    + apply two_marked; [apply IHl, Hl|apply IHr, Hr].
  - intros i (Hn & Ha & _). cbn [WriteExpr expr_tree] in *. one Ha. eapply marked_empty; [nm|key_solve|reflexivity|att_solve].
  - intros e n IH (Hn & _ & He & _). cbn [WriteExpr expr_tree].
    eapply marked_elem; [nm|key_solve|reflexivity|att_solve|apply IH, He].
  - intros t v (Hn & Ha & Hv & _). cbn [WriteExpr expr_tree] in *. one Ha.
    eapply marked_elem; [nm|key_solve|reflexivity|att_solve|apply marked_chars, Hv].
  - intros e IH (Hn & _ & He & _). cbn [WriteExpr expr_tree].
    eapply (marked_elem _ [] _ _ _ []); [nm|apply keys_nil|reflexivity|apply atts_nil|apply IH, He].
  - intros _. eapply (marked_empty _ [] _ []); [nm|apply keys_nil|reflexivity|apply atts_nil].
  - intros e s c IH (Hn & Ha & He & _). cbn [WriteExpr expr_tree] in *. rewrite Forall_app in Ha. destruct Ha as [H1 H2]. one H1.
    change (lit " ") with [32]. rewrite join_separated.
    assert (plain (separated 32 (map pystr c))).
    { apply separated_plain; [repeat constructor; lia|]. apply Forall_map, Forall_forall. intros. apply pystr_plain. }
    eapply marked_elem; [nm|key_solve|reflexivity|att_solve|apply IH, He].
Qed.

(** *** Rules *)
Section RuleInd.
  Variable P : rule -> Prop.
  Hypothesis H_set : forall i e, P (SetOutcomeValue i e).
  Definition Rels (els : option (list rule)) := match els with Some l => Forall P l | None => True end.
  Hypothesis H_cond : forall i elifs els, Forall P (snd i) -> Forall (fun b => Forall P (snd b)) elifs ->
    Rels els -> P (ResponseCondition i elifs els).
  Fixpoint rule_all (r : rule) : P r :=
    let fl := fix go (l : list rule) : Forall P l :=
      match l with [] => Forall_nil P | x :: l' => Forall_cons x (rule_all x) (go l') end in
    let fb := fix go (l : list (option expr * list rule)) : Forall (fun b => Forall P (snd b)) l :=
      match l with
      | [] => Forall_nil _
      | (e, rs) :: l' => Forall_cons (P := fun b => Forall P (snd b)) (e, rs) (fl rs) (go l')
      end in
    match r with
    | SetOutcomeValue i e => H_set i e
    | ResponseCondition (e, rs) elifs els =>
        H_cond (e, rs) elifs els (fl rs) (fb elifs)
          (match els return Rels els with Some l => fl l | None => I end)
    end.
End RuleInd.

Definition rule_good (r : rule) : Prop :=
  rule_expressible r -> clean (rule_tree 32 r) -> exists w, WriteRule r = Ok w /\ marked [rule_tree 32 r] w.
Lemma rules_good rs : Forall rule_good rs -> allp rule_expressible rs -> allp clean (map (rule_tree 32) rs) ->
  exists w, writes WriteRule rs = Ok w /\ marked (map (rule_tree 32) rs) w.
Proof.
  rewrite !allp_Forall, Forall_map. intros H1 H2 H3. apply writes_marked. apply Forall_forall. intros x Hx.
  rewrite Forall_forall in H1, H2, H3. apply H1; auto.
Qed.
Definition write_branch (nm : string) (x : option expr * list rule) : result str :=
  t <- write_test (fst x) ;; rs <- writes WriteRule (snd x) ;;
  Ok (NL ++ open_tag (lit nm) [] ++ t ++ rs ++ NL ++ close_tag (lit nm)).
Definition branch_tree (nm : string) (x : option expr * list rule) : xml :=
  Elem (lit nm) [] (test_tree 32 (fst x) ++ map (rule_tree 32) (snd x)).
Lemma branch_good k x : name_b (lit k) = true -> Forall rule_good (snd x) ->
  fst x <> None /\ allp rule_expressible (snd x) -> clean (branch_tree k x) ->
  exists w, write_branch k x = Ok w /\ marked [branch_tree k x] w.
Proof.
  destruct x as [[e|] rs]; intros Hk IH [Hn He] (_ & _ & Hc); [|destruct (Hn eq_refl)]. cbn [fst snd test_tree] in *.
  destruct Hc as [Hc1 Hc2]. destruct (rules_good rs IH He Hc2) as (w & E & M).
  unfold write_branch. cbn [fst snd write_test bind]. rewrite E. cbn [bind]. eexists. split; [reflexivity|].
  apply marked_nl. rewrite (app_assoc w NL), (app_assoc (WriteExpr e)).
  eapply (marked_elem _ [] _ _ _ []); [apply name_b_ok, Hk|apply keys_nil|reflexivity|apply atts_nil|].
  apply (marked_app [_] _ (map (rule_tree 32) rs)); [apply WriteExpr_marked, Hc1|apply marked_end, M].
Qed.
Theorem WriteRule_good : forall r, rule_good r.
Proof.
  apply rule_all; unfold rule_good.
  - intros i e _ (Hn & Ha & He & _). cbn [WriteRule rule_tree] in *. one Ha. eexists. split; [reflexivity|].
    apply marked_nl. eapply marked_elem; [nm|key_solve|reflexivity|att_solve|apply WriteExpr_marked, He].
  - intros i elifs els IH1 IH2 IH3 (He1 & He2 & He3) (Hn & _ & Hc1 & Hc). cbn [WriteRule].
    change (exists w,
      (a <- write_branch "responseIf" i ;; b <- writes (write_branch "responseElseIf") elifs ;;
       c <- write_opt (fun l => rs <- writes WriteRule l ;;
             Ok (NL ++ open_tag (lit "responseElse") [] ++ rs ++ NL ++ close_tag (lit "responseElse"))) els ;;
       Ok (NL ++ open_tag (lit "responseCondition") [] ++ a ++ b ++ c ++ NL ++ close_tag (lit "responseCondition")))
      = Ok w /\
      marked [Elem (lit "responseCondition") []
        (branch_tree "responseIf" i :: map (branch_tree "responseElseIf") elifs ++
         match els with Some l => [Elem (lit "responseElse") [] (map (rule_tree 32) l)] | None => [] end)] w).
    destruct (branch_good "responseIf" i eq_refl IH1 He1 Hc1) as (w1 & E1 & M1). rewrite E1. cbn [bind].
    apply allp_app in Hc as [Hc2 Hc3].
    assert (H2 : exists w, writes (write_branch "responseElseIf") elifs = Ok w /\
               marked (map (branch_tree "responseElseIf") elifs) w).
    { apply writes_marked. change (allp (fun b : option expr * list rule => fst b <> None /\ allp rule_expressible (snd b)) elifs) in He2.
      change (allp clean (map (branch_tree "responseElseIf") elifs)) in Hc2.
      rewrite allp_Forall in He2. rewrite allp_Forall, Forall_map in Hc2. apply Forall_forall. intros x Hx.
      rewrite Forall_forall in IH2, He2, Hc2. apply branch_good; [reflexivity|apply IH2, Hx|apply He2, Hx|apply Hc2, Hx]. }
    destruct H2 as (w2 & E2 & M2). rewrite E2. cbn [bind].
    assert (H3 : exists w, write_opt (fun l => rs <- writes WriteRule l ;;
             Ok (NL ++ open_tag (lit "responseElse") [] ++ rs ++ NL ++ close_tag (lit "responseElse"))) els = Ok w /\
             marked (match els with Some l => [Elem (lit "responseElse") [] (map (rule_tree 32) l)] | None => [] end) w).
    { destruct els as [l|]; [|exists []; split; [reflexivity|exact marked_nil]].
      destruct Hc3 as [(_ & _ & Hc3) _].
      destruct (rules_good l IH3 He3 Hc3) as (w & E & M). cbn [write_opt]. rewrite E. cbn [bind].
      eexists. split; [reflexivity|]. apply marked_nl. rewrite (app_assoc w NL).
      eapply (marked_elem _ [] _ _ _ []); [nm|apply keys_nil|reflexivity|apply atts_nil|apply marked_end, M]. }
    destruct H3 as (w3 & E3 & M3). rewrite E3. cbn [bind]. eexists. split; [reflexivity|].
    apply marked_nl. rewrite (app_assoc w3 NL), (app_assoc w2), (app_assoc w1).
    eapply (marked_elem _ [] _ _ _ []); [nm|apply keys_nil|reflexivity|apply atts_nil|].
    apply (marked_app [_] _ (_ ++ _)); [exact M1|]. apply marked_app; [exact M2|apply marked_end, M3].
Qed.

(** *** Declarations *)
Lemma default_written d : allp clean (default_tree (Some d)) -> marked (default_tree (Some d)) (WriteDefault d).
Proof.
  destruct d as [v i]. intros [(_ & Ha & (_ & _ & Hv & _) & _) _]. unfold WriteDefault. cbn [fst snd default_tree].
  apply marked_nl. rewrite (app_assoc (XMLString v)), (app_assoc (open_tag (lit "value") [])).
  eapply marked_elem; [nm|key_solve|reflexivity|att_solve|].
  eapply (marked_elem _ [] _ _ _ []); [nm|apply keys_nil|reflexivity|apply atts_nil|apply marked_chars, Hv].
Qed.
Lemma declaration_written d : declaration_expressible d -> clean (declaration_tree d) ->
  marked [declaration_tree d] (WriteDeclaration d).
Proof.
  destruct d as [i c t df|i c t df interp nmax].
  - intros (Hi & Hc & Ht) (_ & _ & Hd). cbn [declaration_tree WriteDeclaration] in *.
    destruct df as [v|]; apply marked_nl.
    + eapply marked_elem; [nm|key_solve|reflexivity|att_solve|apply default_written, Hd].
    + eapply marked_empty; [nm|key_solve|reflexivity|att_solve].
  - intros (Hi & Hc & Ht & Hm) (_ & Ha & Hd). cbn [declaration_tree WriteDeclaration] in *.
    rewrite !Forall_app in Ha. destruct Ha as (H1 & H2 & H3 & H4 & H5).
    assert (atts_as (att_opt "normalMaximum" nmax) (put_str "normalMaximum" nmax)) by (apply atts_str; [reflexivity|exact Hm]).
    destruct df as [v|]; apply marked_nl.
    + eapply marked_elem; [nm|key_solve|reflexivity|att_solve|apply default_written, Hd].
    + eapply marked_empty; [nm|key_solve|reflexivity|att_solve].
Qed.
Lemma declarations_written l : Forall declaration_expressible l -> allp clean (map declaration_tree l) ->
  marked (map declaration_tree l) (concat (map WriteDeclaration l)).
Proof.
  induction 1 as [|d l Hd _ IH]; intros Hc; [exact marked_nil|]. destruct Hc as [Hc1 Hc2]. cbn [map concat].
  apply (marked_app [_] _ (map declaration_tree l)); [apply declaration_written; assumption|apply IH, Hc2].
Qed.

(** Sorting *)
Lemma name_lt_leb a : forall b, str_leb a b = true -> a <> b -> name_lt a b.
Proof.
  induction a as [|x a IH]; intros [|y b] H Hne; cbn [str_leb] in H.
  - destruct (Hne eq_refl).
  - constructor.
  - discriminate.
  - apply orb_true_iff in H as [H|H].
    + apply nl_head. lia.
    + apply andb_true_iff in H as [H1 H2]. apply Z.eqb_eq in H1. subst. apply nl_tail, IH; [exact H2|congruence].
Qed.
Lemma leb_total a : forall b, str_leb a b = false -> str_leb b a = true.
Proof.
  induction a as [|x a IH]; intros [|y b] H; cbn [str_leb] in *; try discriminate; try reflexivity.
  apply orb_false_iff in H as [H1 H2].
  destruct (y <? x) eqn:E; [reflexivity|]. assert (x = y) as -> by lia. rewrite Z.eqb_refl in *. cbn [andb orb] in *. apply IH, H2.
Qed.
Lemma name_lt_trans a : forall b c, name_lt a b -> name_lt b c -> name_lt a c.
Proof.
  induction a as [|x a IH]; intros b c H1 H2.
  - inversion H1; subst. inversion H2; subst; constructor.
  - inversion H1; subst; inversion H2; subst; try (apply nl_head; lia); try (apply nl_head; assumption).
    apply nl_tail. eapply IH; eassumption.
Qed.
Lemma insert_perm v l : Permutation (insert_var v l) (v :: l).
Proof.
  induction l as [|w l IH]; cbn [insert_var]; [reflexivity|]. destruct (str_leb (fst v) (fst w)); [reflexivity|].
  rewrite IH. apply perm_swap.
Qed.
Lemma sort_perm l : Permutation (sort_vars l) l.
Proof. induction l as [|v l IH]; cbn [sort_vars fold_right]; [reflexivity|]. rewrite insert_perm. constructor. exact IH. Qed.
Definition sorted_vars (l : list (str * declaration)) := StronglySorted name_lt (map fst l).
Lemma insert_sorted v l : sorted_vars l -> ~ In (fst v) (map fst l) -> sorted_vars (insert_var v l).
Proof.
  unfold sorted_vars. induction l as [|w l IH]; intros Hs Hn; cbn [insert_var map].
  - repeat constructor.
  - cbn [map] in *. inversion Hs as [|? ? Hs' Hf]; subst. destruct (str_leb (fst v) (fst w)) eqn:E.
    + assert (name_lt (fst v) (fst w)) by (apply name_lt_leb; [exact E|]; intros Q; apply Hn; left; congruence).
      cbn [map]. constructor; [exact Hs|]. constructor; [assumption|]. eapply Forall_impl; [|exact Hf]. intros a. apply name_lt_trans. assumption.
    + cbn [map]. constructor; [apply IH; [exact Hs'|intros Q; apply Hn; right; exact Q]|].
      assert (name_lt (fst w) (fst v)) by (apply name_lt_leb; [apply leb_total, E|]; intros Q; apply Hn; left; exact Q).
      apply Forall_forall. intros a Ha. apply (Permutation_in a (Permutation_map fst (insert_perm v l))) in Ha.
      destruct Ha as [<-|Ha]; [assumption|]. rewrite Forall_forall in Hf. apply Hf, Ha.
Qed.
Lemma sort_sorted l : NoDup (map fst l) -> sorted_vars (sort_vars l).
Proof.
  induction l as [|v l IH]; cbn [sort_vars fold_right map]; intros H; [constructor|]. inversion H; subst.
  apply insert_sorted; [apply IH; assumption|]. intros Hi. apply H2.
  eapply Permutation_in; [|exact Hi]. apply Permutation_map, sort_perm.
Qed.
Lemma filter_sorted (f : str * declaration -> bool) l : sorted_vars l -> sorted_vars (filter f l).
Proof.
  unfold sorted_vars. induction l as [|v l IH]; cbn [filter map]; intros H; [constructor|]. inversion H; subst.
  destruct (f v); [|auto]. cbn [map]. constructor; [auto|]. apply Forall_forall. intros x Hx. rewrite Forall_forall in H3. apply H3.
  apply in_map_iff in Hx as (y & <- & Hy). apply filter_In in Hy as [Hy _]. apply in_map, Hy.
Qed.
Lemma filter_split {A} (f : A -> bool) l : Permutation (filter f l ++ filter (fun x => negb (f x)) l) l.
Proof.
  induction l as [|x l IH]; [reflexivity|]. cbn [filter]. destruct (f x); cbn [negb].
  - cbn [app]. constructor. exact IH.
  - rewrite <- Permutation_middle. constructor. exact IH.
Qed.
Lemma concat_filter {A} (f : A -> bool) (g : A -> str) l :
  concat (map (fun v => if f v then g v else []) l) = concat (map g (filter f l)).
Proof. induction l as [|x l IH]; [reflexivity|]. cbn [map concat filter]. rewrite IH. destruct (f x); reflexivity. Qed.

(** *** The item *)
Lemma feedback_written f : f_identifier f <> None -> nonempty (f_title f) = false ->
  Forall expressible (f_elements f) -> clean (feedback_tree f) ->
  exists w, WriteFeedback f = Ok w /\ marked [feedback_tree f] w.
Proof.
  destruct f as [o [i|] sh t es]; intros Hi Ht He; [|destruct (Hi eq_refl)]. unfold feedback_tree, WriteFeedback.
  cbn [f_outcome f_identifier f_showHide f_title f_elements] in *.
  replace (att_opt "title" t) with (@nil (str * str)) by (destruct t as [[|]|]; [reflexivity|discriminate Ht|reflexivity]).
  rewrite app_nil_r. intros (_ & Ha & Hc). rewrite !Forall_app in Ha. destruct Ha as (H1 & H2 & H3). one H1. one H2. one H3.
  destruct (good_list es) as (w & E & M).
  { apply Forall_forall. intros x _. apply WriteXML_good. }
  { apply allp_Forall, He. }
  { exact Hc. }
  rewrite E. cbn [bind]. eexists. split; [reflexivity|]. apply marked_nl.
  eapply marked_elem; [nm|key_solve|reflexivity|att_solve|exact M].
Qed.

Lemma atts_nl k v : name_b (lit k) = true -> att_ok v -> atts_as (att k v) (nl_put k (XMLString v)).
Proof.
  intros Hk Hv. pose proof (text_ok_is_text v (proj1 Hv)) as Ht.
  change (nl_put k (XMLString v)) with ([10; 32] ++ lit k ++ 61 :: 34 :: XMLString v ++ [34]).
  apply atts_lead; [repeat constructor; unfold space; lia|discriminate|apply lit_ascii_b; reflexivity|apply name_b_ok, Hk|
    apply XMLString_reads, Ht|exact Ht| |apply XMLString_ascii, Hv].
  apply XMLString_no_quote; [exact Ht|apply att_ok_quote, Hv].
Qed.
Lemma atts_nl_plain k v : name_b (lit k) = true -> plain v -> atts_as (att k v) (nl_put k v).
Proof.
  intros Hk Hv. change (nl_put k v) with ([10; 32] ++ lit k ++ 61 :: 34 :: v ++ [34]).
  apply atts_lead; [repeat constructor; unfold space; lia|discriminate|apply lit_ascii_b; reflexivity|apply name_b_ok, Hk|
    apply plain_reads, Hv|apply plain_text, Hv|apply plain_no_quote, Hv|apply plain_ascii, Hv].
Qed.
Lemma atts_nl_opt k o : name_b (lit k) = true -> Forall (fun kv => att_ok (snd kv)) (att_opt k o) ->
  atts_as (att_opt k o) (nl_opt k o).
Proof.
  intros Hk Ho. destruct o as [[|c s]|]; try exact atts_nil. cbn [att_opt nl_opt] in *. one Ho. apply atts_nl; assumption.
Qed.
Definition plain_b (s : str) : bool := forallb (fun c => (32 <=? c) && (c <? 128) && negb (mem c [34; 38; 60])) s.
Lemma plain_b_ok s : plain_b s = true -> plain s.
Proof.
  intros H. apply Forall_forall. intros c Hc. unfold plain_b in H. rewrite forallb_forall in H. specialize (H c Hc).
  cbv [mem existsb] in H. lia.
Qed.
Lemma atts_tab k v : name_b (lit k) = true -> plain_b v = true -> atts_as (att k v) (tab_put k v).
Proof.
  intros Hk Hv. apply plain_b_ok in Hv. change (tab_put k v) with ([10; 9] ++ lit k ++ 61 :: 34 :: v ++ [34]).
  apply atts_lead; [repeat constructor; unfold space; lia|discriminate|apply lit_ascii_b; reflexivity|apply name_b_ok, Hk|
    apply plain_reads, Hv|apply plain_text, Hv|apply plain_no_quote, Hv|apply plain_ascii, Hv].
Qed.

Lemma declared_exists vars : NoDup (map fst vars) -> Forall (fun v => fst v = decl_identifier (snd v)) vars ->
  declared vars (map declaration_tree
    (map snd (filter (fun v => is_response (snd v)) (sort_vars vars) ++
              filter (fun v => negb (is_response (snd v))) (sort_vars vars)))).
Proof.
  intros Hd Hk. set (rs := filter (fun v => is_response (snd v)) (sort_vars vars)).
  set (os := filter (fun v => negb (is_response (snd v))) (sort_vars vars)).
  assert (Hk' : forall v, In v (sort_vars vars) -> fst v = decl_identifier (snd v)).
  { intros v Hv. rewrite Forall_forall in Hk. apply Hk. eapply Permutation_in; [apply sort_perm|exact Hv]. }
  assert (Hm : forall l, incl l (sort_vars vars) -> map decl_identifier (map snd l) = map fst l).
  { intros l Hl. rewrite map_map. apply map_ext_in. intros v Hv. symmetry. apply Hk', Hl, Hv. }
  exists (map snd rs), (map snd os). rewrite <- map_app. split; [|split; [|split; [|split; [|split]]]].
  - apply Permutation_map. etransitivity; [exact (filter_split (fun v : str * declaration => is_response (snd v)) (sort_vars vars))|apply sort_perm].
  - apply Forall_map, Forall_forall. intros v Hv. apply filter_In in Hv. apply Hv.
  - apply Forall_map, Forall_forall. intros v Hv. apply filter_In in Hv. apply negb_true_iff, Hv.
  - rewrite Hm by (intros v Hv; apply filter_In in Hv; apply Hv). apply filter_sorted, sort_sorted, Hd.
  - rewrite Hm by (intros v Hv; apply filter_In in Hv; apply Hv). apply filter_sorted, sort_sorted, Hd.
  - reflexivity.
Qed.

(** Sorted declarations are determined by the dictionary *)
Lemma name_lt_irrefl a : ~ name_lt a a.
Proof. induction a as [|x a IH]; intros H; inversion H; subst; [lia|]. apply IH; assumption. Qed.
Lemma sorted_unique {A} (f : A -> str) l1 : forall l2, Permutation l1 l2 ->
  StronglySorted name_lt (map f l1) -> StronglySorted name_lt (map f l2) -> l1 = l2.
Proof.
  induction l1 as [|x l1 IH]; intros l2 Hp H1 H2; [symmetry; apply Permutation_nil, Hp|].
  destruct l2 as [|y l2]; [apply Permutation_sym, Permutation_nil in Hp; discriminate|].
  cbn [map] in *. inversion H1 as [|? ? S1 F1]; subst. inversion H2 as [|? ? S2 F2]; subst.
  assert (x = y) as <-.
  { destruct (Permutation_in x Hp (or_introl eq_refl)) as [E|Hx]; [auto|].
    destruct (Permutation_in y (Permutation_sym Hp) (or_introl eq_refl)) as [E|Hy]; [auto|].
    exfalso. rewrite Forall_forall in F1, F2. apply (name_lt_irrefl (f x)).
    eapply name_lt_trans; [apply F1, in_map, Hy|apply F2, in_map, Hx]. }
  f_equal. apply IH; [eapply Permutation_cons_inv; exact Hp|assumption|assumption].
Qed.
Lemma filter_app_cases {A} (f : A -> bool) l1 l2 : Forall (fun d => f d = true) l1 -> Forall (fun d => f d = false) l2 ->
  filter f (l1 ++ l2) = l1 /\ filter (fun d => negb (f d)) (l1 ++ l2) = l2.
Proof.
  intros H1 H2. rewrite !filter_app.
  assert (G : forall g : A -> bool, forall l, Forall (fun d => g d = true) l -> filter g l = l).
  { intros g l H. induction H as [|d l Hd _ IH]; [reflexivity|]. cbn [filter]. rewrite Hd, IH. reflexivity. }
  assert (G' : forall g : A -> bool, forall l, Forall (fun d => g d = false) l -> filter g l = []).
  { intros g l H. induction H as [|d l Hd _ IH]; [reflexivity|]. cbn [filter]. rewrite Hd. exact IH. }
  split.
  - rewrite (G f l1 H1), (G' f l2 H2). apply app_nil_r.
  - rewrite (G' (fun d => negb (f d)) l1), (G (fun d => negb (f d)) l2); [reflexivity| |];
      eapply Forall_impl; try eassumption; cbv beta; intros d ->; reflexivity.
Qed.
Lemma filter_perm {A} (f : A -> bool) l1 l2 : Permutation l1 l2 -> Permutation (filter f l1) (filter f l2).
Proof.
  induction 1 as [|x l1 l2 _ IH|x y l|l1 l2 l3 _ IH1 _ IH2]; cbn [filter].
  - constructor.
  - destruct (f x); [constructor|]; exact IH.
  - destruct (f x), (f y); try reflexivity. constructor.
  - etransitivity; eassumption.
Qed.
Lemma declared_unique vars l1 l2 : declared vars l1 -> declared vars l2 -> l1 = l2.
Proof.
  intros (r1 & o1 & P1 & R1 & O1 & S1 & T1 & ->) (r2 & o2 & P2 & R2 & O2 & S2 & T2 & ->).
  assert (P : Permutation (r1 ++ o1) (r2 ++ o2)) by (rewrite P1, P2; reflexivity).
  destruct (filter_app_cases is_response r1 o1 R1 O1) as [E1 E1'].
  destruct (filter_app_cases is_response r2 o2 R2 O2) as [E2 E2'].
  f_equal. f_equal.
  - apply (sorted_unique decl_identifier); [|assumption|assumption]. rewrite <- E1, <- E2. apply filter_perm, P.
  - apply (sorted_unique decl_identifier); [|assumption|assumption]. rewrite <- E1', <- E2'. apply filter_perm, P.
Qed.

Theorem WriteItem_good i x : item_expressible i -> item_tree 32 i x -> clean x ->
  exists w, WriteItem i = Ok w /\ marked [x] w.
Proof.
  intros (Hd & Hv & Hb & Hp & Hf) (decls & Hdecl & ->) (_ & Ha & Hc).
  assert (Hk : Forall (fun v => fst v = decl_identifier (snd v)) (i_variables i)) by (eapply Forall_impl; [|exact Hv]; intros v [H _]; exact H).
  rewrite (declared_unique _ _ _ Hdecl (declared_exists _ Hd Hk)) in *. clear decls Hdecl.
  change (allp clean (map declaration_tree (map snd (filter (fun v => is_response (snd v)) (sort_vars (i_variables i)) ++
              filter (fun v => negb (is_response (snd v))) (sort_vars (i_variables i)))) ++
          match i_body i with Some (b, es) => [Elem (lit "itemBody") (body_atts b) (map tree es)] | None => [] end ++
         processing_tree 32 (i_processing i) ++ map feedback_tree (i_feedback i))) in Hc.
  apply allp_app in Hc as [Hc1 Hc]. apply allp_app in Hc as [Hc2 Hc]. apply allp_app in Hc as [Hc3 Hc4].
  rewrite !Forall_app in Ha. destruct Ha as (_ & _ & _ & A1 & A2 & A3 & A4 & A5 & A6 & A7 & A8). one A1. one A2.
  set (ds := filter (fun v => is_response (snd v)) (sort_vars (i_variables i)) ++
              filter (fun v => negb (is_response (snd v))) (sort_vars (i_variables i))) in *.
  assert (M1 : marked (map declaration_tree (map snd ds))
    (concat (map (fun v => if is_response (snd v) then WriteDeclaration (snd v) else []) (sort_vars (i_variables i))) ++
     concat (map (fun v => if is_response (snd v) then [] else WriteDeclaration (snd v)) (sort_vars (i_variables i))))).
  { replace (concat (map (fun v => if is_response (snd v) then WriteDeclaration (snd v) else []) (sort_vars (i_variables i))) ++
     concat (map (fun v => if is_response (snd v) then [] else WriteDeclaration (snd v)) (sort_vars (i_variables i))))
      with (concat (map WriteDeclaration (map snd ds))).
    - apply declarations_written; [|exact Hc1]. apply Forall_map, Forall_forall. intros v Hv'.
      rewrite Forall_forall in Hv. apply (Hv v). eapply Permutation_in; [apply sort_perm|].
      unfold ds in Hv'. apply in_app_or in Hv' as [Hv'|Hv']; apply filter_In in Hv'; apply Hv'.
    - unfold ds. rewrite map_map, map_app, concat_app. f_equal.
      + rewrite (concat_filter (fun v => is_response (snd v)) (fun v => WriteDeclaration (snd v))). reflexivity.
      + rewrite <- (concat_filter (fun v => negb (is_response (snd v))) (fun v => WriteDeclaration (snd v))).
        f_equal. apply map_ext. intros v. destruct (is_response (snd v)); reflexivity. }
  assert (M2 : exists w, write_opt (fun b : battrs * list elem =>
            t <- writes WriteXML (snd b) ;;
            Ok (NL ++ open_tag (lit "itemBody") (body_attributes (fst b)) ++ t ++ NL ++
                close_tag (lit "itemBody"))) (i_body i) = Ok w /\
            marked (match i_body i with Some (b, es) => [Elem (lit "itemBody") (body_atts b) (map tree es)] | None => [] end) w).
  { destruct (i_body i) as [[b es]|]; [|exists []; split; [reflexivity|exact marked_nil]]. cbn [write_opt fst snd].
    destruct Hc2 as [(_ & B1 & B2) _].
    destruct (good_list es) as (w & E & M).
    { apply Forall_forall. intros y _. apply WriteXML_good. }
    { apply allp_Forall, Hb. }
    { exact B2. }
    rewrite E. cbn [bind]. eexists. split; [reflexivity|]. apply marked_nl. rewrite (app_assoc w NL).
    eapply marked_elem; [nm|key_solve|reflexivity|att_solve|apply marked_end, M]. }
  destruct M2 as (w2 & E2 & M2).
  assert (M3 : exists w, write_opt WriteResponseProcessing (i_processing i) = Ok w /\ marked (processing_tree 32 (i_processing i)) w).
  { destruct (i_processing i) as [[|r rs]|]; try (exists []; split; [reflexivity|exact marked_nil]).
    cbn [write_opt WriteResponseProcessing processing_tree] in *. destruct Hc3 as [(_ & _ & B2) _].
    destruct (rules_good (r :: rs)) as (w & E & M).
    { apply Forall_forall. intros y _. apply WriteRule_good. }
    { apply allp_Forall, Hp. }
    { exact B2. }
    rewrite E. cbn [bind]. eexists. split; [reflexivity|]. apply marked_nl. rewrite (app_assoc w NL).
    eapply (marked_elem _ [] _ _ _ []); [nm|apply keys_nil|reflexivity|apply atts_nil|apply marked_end, M]. }
  destruct M3 as (w3 & E3 & M3).
  assert (M4 : exists w, writes WriteFeedback (i_feedback i) = Ok w /\ marked (map feedback_tree (i_feedback i)) w).
  { apply writes_marked. apply Forall_forall. intros f Hin. rewrite Forall_forall in Hf. destruct (Hf f Hin) as (F1 & F2 & F3).
    apply feedback_written; try assumption. apply allp_Forall in Hc4. rewrite Forall_map, Forall_forall in Hc4. apply Hc4, Hin. }
  destruct M4 as (w4 & E4 & M4).
  unfold WriteItem. cbv zeta. rewrite E2. cbn [bind]. rewrite E3. cbn [bind]. rewrite E4. cbn [bind].
  eexists. split; [reflexivity|].
  match goal with |- marked _ (?o ?n ?a ++ (?d1 ++ ?d2) ++ ?b ++ ?c ++ ?d ++ ?e ++ ?f ++ ?g) =>
    replace (o n a ++ (d1 ++ d2) ++ b ++ c ++ d ++ e ++ f ++ g) with ((o n a ++ ((d1 ++ d2) ++ b ++ c ++ d ++ e) ++ f) ++ g) by (rewrite <- !app_assoc; reflexivity) end.
  apply marked_end. eapply marked_elem; [nm|key_solve|reflexivity| |].
  - repeat first [ apply atts_tab; reflexivity
                 | apply atts_nl_opt; [reflexivity|assumption]
                 | apply atts_nl; [reflexivity|assumption]
                 | apply atts_nl_plain; [reflexivity|apply truth_plain]
                 | apply atts_esc; [reflexivity|assumption]
                 | apply atts_app ].
  - apply marked_app; [exact M1|]. apply marked_app; [exact M2|]. apply marked_app; [exact M3|apply marked_end, M4].
Qed.

(** *** Reading it back *)
Lemma char_events_app a b : char_events (a ++ b) = char_events a ++ char_events b.
Proof. unfold char_events. rewrite filter_app, map_app. reflexivity. Qed.
Lemma flush_events chars : flat_map token_events (flush chars) = char_events chars.
Proof. destruct chars as [|c s]; [reflexivity|]. cbn [flush flat_map token_events]. apply app_nil_r. Qed.
Lemma tok_tag t m chars rest ts : tag_markup t m -> tok [] rest = Ok ts ->
  tok chars (m ++ rest) = Ok (flush chars ++ Tag t :: ts).
Proof.
  intros Ht E. destruct (parse_lt_tag _ _ Ht) as (m' & -> & Ep). cbn [app].
  rewrite tok_eq, Z.eqb_refl, Ep. cbn [bind]. rewrite E. reflexivity.
Qed.
Lemma markup_tok l w : markup l w -> forall chars, exists pre chars',
  (forall r ts, tok chars' r = Ok ts -> tok chars (w ++ r) = Ok (pre ++ ts)) /\
  char_events chars ++ flat_map events l = flat_map token_events pre ++ char_events chars'.
Proof.
  induction 1 as [|c l w Hc H IH|s l m w Hs Hr Hg H IH|n a c l m u1 u2 Hn Ha Hm Hc IHc Hl IHl|n a l m u2 Hn Ha Hm Hl IHl];
    intros chars.
  - exists [], chars. split; [intros r ts E; exact E|]. cbn [flat_map]. rewrite app_nil_r. reflexivity.
  - destruct (IH (chars ++ [c])) as (pre & chars' & E & V). exists pre, chars'. split.
    + intros r ts Er. cbn [app]. rewrite tok_eq.
      assert (c =? 60 = false) as -> by (unfold space in Hc; lia). assert (c =? 38 = false) as -> by (unfold space in Hc; lia).
      apply E, Er.
    + rewrite <- V, char_events_app. assert (char_events [c] = []) as ->; [|rewrite app_nil_r; reflexivity].
      unfold char_events. cbn [filter]. destruct Hc as [->|[->|[->| ->]]]; reflexivity.
  - assert (Ht : is_text s) by (eapply Forall_impl; [|exact Hs]; unfold xml_Char; cbv beta; lia).
    destruct (IH (chars ++ s)) as (pre & chars' & E & V). exists pre, chars'. split.
    + intros r ts Er. rewrite <- app_assoc, (tok_reads _ _ Hr Ht). apply E, Er.
    + rewrite <- V, char_events_app, <- app_assoc. reflexivity.
  - destruct (IHc []) as (pre1 & ch1 & E1 & V1). destruct (IHl []) as (pre2 & ch2 & E2 & V2).
    exists (flush chars ++ Tag (mkTag n STag a) :: pre1 ++ flush ch1 ++ Tag (mkTag n ETag []) :: pre2), ch2. split.
    + intros r ts Er.
      replace ((60 :: n ++ m ++ 62 :: u1 ++ 60 :: 47 :: n ++ 62 :: u2) ++ r)
        with ((60 :: n ++ m ++ [62]) ++ (u1 ++ ((60 :: 47 :: n ++ [] ++ [62]) ++ (u2 ++ r))))
        by (cbn [app]; rewrite <- !app_assoc; cbn [app]; rewrite <- !app_assoc; cbn [app]; rewrite <- !app_assoc; reflexivity).
      erewrite tok_tag; [|apply tm_start; eassumption|apply E1; erewrite tok_tag; [reflexivity|apply tm_end; [exact Hn|constructor]|apply E2, Er]].
      rewrite <- !app_assoc. cbn [app]. rewrite <- !app_assoc. reflexivity.
    + cbn [flat_map events] in *. rewrite !flat_map_app, flush_events. cbn [flat_map token_events app].
      rewrite !flat_map_app, flush_events. cbn [flat_map token_events app].
      rewrite <- !app_assoc. cbn [app]. f_equal. f_equal.
      change (char_events [] ++ flat_map events c) with (flat_map events c) in V1.
      change (char_events [] ++ flat_map events l) with (flat_map events l) in V2.
      rewrite V1, V2, <- !app_assoc. reflexivity.
  - destruct (IHl []) as (pre2 & ch2 & E2 & V2).
    exists (flush chars ++ Tag (mkTag n EmptyElemTag a) :: pre2), ch2. split.
    + intros r ts Er.
      replace ((60 :: n ++ m ++ 47 :: 62 :: u2) ++ r) with ((60 :: n ++ m ++ [47; 62]) ++ (u2 ++ r))
        by (cbn [app]; rewrite <- !app_assoc; cbn [app]; reflexivity).
      erewrite tok_tag; [|apply tm_empty; eassumption|apply E2, Er]. rewrite <- app_assoc. reflexivity.
    + cbn [flat_map events] in *. rewrite !flat_map_app, flush_events. cbn [flat_map token_events app].
      change (char_events [] ++ flat_map events l) with (flat_map events l) in V2.
      rewrite V2. rewrite <- !app_assoc. reflexivity.
Qed.
Theorem markup_read l w : markup l w -> exists ts,
  TokenizeString w = Ok ts /\ flat_map token_events ts = flat_map events l.
Proof.
  intros H. destruct (markup_tok l w H []) as (pre & ch & E & V).
  exists (pre ++ flush ch). split.
  - specialize (E [] (flush ch)). rewrite app_nil_r in E. apply E. reflexivity.
  - rewrite flat_map_app, flush_events. symmetry. exact V.
Qed.

Lemma XMLString_app a b : XMLString (a ++ b) = XMLString a ++ XMLString b.
Proof. induction a as [|c a IH]; [reflexivity|]. cbn [app XMLString]. rewrite IH, app_assoc. reflexivity. Qed.
Lemma plain_read_nl : reads [10] [10].
Proof. apply rd_char; [lia|lia|constructor]. Qed.
