(** Theorems about the texts of $filter and $orderby (C143-C146).  The model is OdExpr.v, the grammar
    OdExprSpec.v. *)
From Coq Require Import Lia ZArith List Bool.
From Verif Require Import Py Iso Dec Shapes XmlChars OdExpr OdExprSpec OdExprProofs OdExprProofs2 OdExprProofs3 OdExprProofs4 OdExprProofs5 OdExprProofs6.
Import ListNotations.
Open Scope Z_scope.
Open Scope list_scope.

Section Props.
Context {X : Type}.
Variable number : edm_type -> numeric -> result X.
Variable quoted : edm_type -> str -> result (X * str).
Variable show : edm_type -> X -> str.
Variable start id : Z -> bool.
Hypothesis Hcl : classes start id.
Hypothesis Hrd : readers number quoted.
Notation FromString := (FromString X number quoted start id).
Notation OrderByFromString := (OrderByFromString X number quoted start id).
Notation filter_means := (filter_means number quoted start id).
Notation orderby_means := (orderby_means number quoted start id).
Notation printable := (printable number quoted show start id).

(** ** C143: strength and association of operators *)
(** The grammar leaves out brackets around unary operators, unary operators of unary operators,
    and the reserved names: see the refutations. *)
Theorem C143_reads_partial : forall e s, filter_means e s -> FromString s = Ok e.
Proof. exact (filter_read number quoted start id Hcl Hrd). Qed.
Theorem C143_unambiguous : forall e e' s, filter_means e s -> filter_means e' s -> e = e'.
Proof. intros e e' s H H'. apply C143_reads_partial in H, H'. congruence. Qed.

(** ** C144: texts that are not expressions *)
(** Reading ends, with an expression or with ValueError *)
Theorem C144_error_partial : forall s, (exists e, FromString s = Ok e) \/ FromString s = Err ValueError.
Proof.
  intros s. pose proof (FromString_total number quoted start id Hrd s) as H. destruct (FromString s) as [e|e]; [left; eauto|right; congruence].
Qed.

(** An expression with more text after it is refused, unless that text is an operator, white space or
    a bracket: a closing bracket or a comma, or white space and a mark, a digit or a word *)
Definition operator_words : list str :=
  map lit ["not"; "mul"; "div"; "mod"; "add"; "sub"; "lt"; "gt"; "le"; "ge"; "eq"; "ne"; "and"; "or";
           "boolNot"; "boolAnd"; "boolOr"]%string.
Inductive continues_nothing : str -> Prop :=
| CNmark : forall c t, start c = false -> ~ In c [32; 9; 40; 47] -> continues_nothing (c :: t)
| CNword : forall n t, identifier start id n -> ~ In n operator_words ->
    match t with c :: _ => id c = false /\ c <> 46 | [] => True end -> continues_nothing (n ++ t).
Lemma continues_no_op t : continues_nothing t -> exists c t', t = c :: t' /\ is_wsp c = false /\ c <> 40 /\ next_op start id t = None.
Proof.
  intros [c u Hs Hc|n u Hi Hn He].
  - exists c, u. cbn [In] in Hc. split; [reflexivity|]. split; [unfold is_wsp; destruct (c =? 32) eqn:E1, (c =? 9) eqn:E2; cbn; lia || reflexivity|].
    split; [lia|]. unfold next_op. rewrite (ident_none start id (c :: u) Hs). assert (c <> 47) as H by lia.
    destruct c as [|q|q]; try reflexivity. do 6 (destruct q as [q|q|]; try reflexivity). contradiction.
  - pose proof (ident_starts start id Hcl n Hi) as Hst. destruct n as [|c n]; [destruct Hst|]. exists c, (n ++ u). cbn [starts] in Hst.
    assert (start c = true) as Hc by (inversion Hi; assumption).
    split; [reflexivity|]. split; [exact Hst|]. split.
    + intros ->. assert (id 40 = false) as F by (apply (cl_marks _ _ Hcl); cbn; auto 12). rewrite (cl_start _ _ Hcl 40 Hc) in F. discriminate.
    + unfold next_op. rewrite (ident_app start id Hcl (c :: n) u Hi He). assert (c <> 47) as H.
      { intros ->. assert (id 47 = false) as F by (apply (cl_marks _ _ Hcl); cbn; auto 12). rewrite (cl_start _ _ Hcl 47 Hc) in F. discriminate. }
      assert (match op_of_name (c :: n) with Some o => if special o then None else Some (o, u) | None => None end = None) as ->.
      { unfold op_of_name. destruct (find _ _) as [[o k]|] eqn:F; [|reflexivity]. apply find_some in F. destruct F as [Fi Fe].
        apply str_eqb_eq in Fe. cbn [snd fst] in *. subst k. destruct (special o) eqn:So; [reflexivity|]. exfalso. apply Hn.
        assert (forallb (fun p => special (fst p) || existsb (str_eqb (snd p)) operator_words) operators = true) as A by reflexivity.
        rewrite forallb_forall in A. specialize (A _ Fi). cbn [fst snd] in A. rewrite So in A. apply existsb_exists in A.
        destruct A as (x & Hx & Ex). apply str_eqb_eq in Ex. now subst x. }
      cbn [app]. destruct c as [|q|q]; try reflexivity. do 6 (destruct q as [q|q|]; try reflexivity). contradiction.
Qed.
Theorem C144_trailing_partial : forall e s w t, filter_means e s -> spaces w -> continues_nothing t ->
  w <> [] \/ (exists c t', t = c :: t' /\ (c = 41 \/ c = 44)) -> FromString (s ++ w ++ t) = Err ValueError.
Proof.
  intros e s w t (w1 & w2 & u & Hw1 & Hw2 & M & ->) Hw Ht Hs. destruct (continues_no_op t Ht) as (c & t' & -> & Hc & H40 & Hno).
  unfold OdExpr.FromString. rewrite <- !app_assoc.
  assert (spaces (w2 ++ w)) as Hww by (apply Forall_app; now split).
  rewrite (app_assoc w2 w). assert (wsp ((w2 ++ w) ++ c :: t') = c :: t') as Hws by (rewrite wsp_spaces by exact Hww; apply wsp_id; exact Hc).
  rewrite (parse_before number quoted start id Hcl Hrd e u ((w2 ++ w) ++ c :: t') w1 M Hw1).
  - rewrite Hws. reflexivity.
  - split; [|rewrite Hws; exact H40]. destruct Hs as [Hs|(c' & t'' & E & Hc')].
    + apply stop_spaces1. split; [exact Hww|]. destruct w2; [exact Hs|discriminate].
    + apply stop_spaces; [exact Hww|]. injection E as -> _. cbn. intuition.
  - rewrite Hws. exact Hno.
Qed.

(** ** C145: orders *)
Theorem C145_reads : forall l s, orderby_means l s -> OrderByFromString s = Ok l.
Proof. exact (orderby_read number quoted start id Hcl Hrd). Qed.
Theorem C145_total : forall s, (exists l, OrderByFromString s = Ok l) \/ OrderByFromString s = Err ValueError.
Proof.
  intros s. pose proof (orderby_total number quoted start id Hrd s) as H. destruct (OrderByFromString s) as [e|e]; [left; eauto|right; congruence].
Qed.
Theorem C145_round_partial : forall l, l <> [] -> Forall (fun p => printable (fst p)) l ->
  exists t, OrderByToString X show l = Ok t /\ OrderByFromString t = Ok l.
Proof. exact (orderby_round number quoted show start id Hcl Hrd). Qed.

(** ** C146: formatting and reading back *)
Theorem C146_round_partial : forall e, printable e -> exists t, text X show e = Ok t /\ FromString t = Ok e.
Proof. exact (printable_round number quoted show start id Hcl Hrd). Qed.
Theorem C146_literals : forall v, plain v -> exists t, text X show (ELit v) = Ok t /\ FromString t = Ok (ELit v).
Proof. intros v H. apply C146_round_partial. apply PLit. apply plain_literal. exact H. Qed.
End Props.

(** ** An instance *)
Definition demo_letter (c : Z) : bool := ((97 <=? c) && (c <=? 122)) || ((65 <=? c) && (c <=? 90)).
Definition demo_id (c : Z) : bool := demo_letter c || ((48 <=? c) && (c <=? 57)) || (c =? 95).
(** Decimals are read as their digits; the other types are not read *)
Definition demo_number (t : edm_type) (n : numeric) : result str :=
  match t with TDecimal => Ok (n_left n) | _ => Err ValueError end.
Definition demo_quoted (t : edm_type) (s : str) : result (str * str) :=
  match t with TGuid => let '(h, r) := run is_hex s in Ok (h, r) | _ => Err ValueError end.
Definition demo_show (t : edm_type) (x : str) : str := x.
Lemma demo_classes : classes demo_letter demo_id.
Proof.
  split; unfold demo_id, demo_letter; intros c H; try lia.
  cbn [In] in H. repeat (destruct H as [<- |H]; [reflexivity|]). destruct H.
Qed.
Lemma demo_readers : readers demo_number demo_quoted.
Proof.
  split.
  - intros [] n e; cbn; congruence.
  - intros [] s e; cbn; try congruence. destruct (run is_hex s); congruence.
  - intros [] s x r; cbn; try congruence. destruct (run is_hex s) as [a b] eqn:E. apply run_len in E. intros H. inversion H; subst. exact E.
Qed.
Notation read := (FromString str demo_number demo_quoted demo_letter demo_id).
Notation meaning := (filter_means demo_number demo_quoted demo_letter demo_id).

Lemma demo_ident s : forallb demo_letter s = true -> s <> [] -> identifier demo_letter demo_id s.
Proof.
  intros H Hn. destruct s as [|c s]; [contradiction|]. cbn [forallb] in H. apply andb_prop in H. destruct H as [Hc Hs].
  constructor; [exact Hc|]. apply Forall_forall. rewrite forallb_forall in Hs. intros x Hx. apply (cl_start _ _ demo_classes). auto.
Qed.
Lemma demo_prop s : forallb demo_letter s = true -> s <> [] ->
  forallb (fun w => negb (str_eqb (lower s) (lit w))) lit_words && negb (existsb (str_eqb s) [lit "X"; lit "not"; lit "isof"; lit "cast"]) = true ->
  identifier demo_letter demo_id s /\ ~ reserved s.
Proof.
  intros H Hn Hr. split; [apply demo_ident; assumption|]. apply andb_prop in Hr. destruct Hr as [H1 H2]. intros [H3|H3].
  - apply Exists_exists in H3. destruct H3 as (w & Hw & HW). rewrite forallb_forall in H1. specialize (H1 w Hw).
    apply word_lower in HW; [rewrite HW, str_eqb_refl in H1; discriminate|].
    cbn [In] in Hw. repeat (destruct Hw as [<- |Hw]; [reflexivity|]). destruct Hw.
  - assert (existsb (str_eqb s) [lit "X"; lit "not"; lit "isof"; lit "cast"] = true) as HE by (apply existsb_exists; exists s; split; [exact H3|apply str_eqb_refl]).
    rewrite HE in H2. discriminate.
Qed.
Lemma sp1 : spaces1 [32].
Proof. split; [repeat constructor|discriminate]. Qed.
Lemma demo_means_a : means demo_number demo_quoted demo_letter demo_id 10 (EProp (lit "a")) (lit "a").
Proof. destruct (demo_prop (lit "a")) as [H1 H2]; try reflexivity; [discriminate|]. apply MProp; assumption. Qed.
Lemma demo_means_b : means demo_number demo_quoted demo_letter demo_id 10 (EProp (lit "b")) (lit "b").
Proof. destruct (demo_prop (lit "b")) as [H1 H2]; try reflexivity; [discriminate|]. apply MProp; assumption. Qed.
Lemma demo_not_a : meaning (EOp true ONot [Some (EProp (lit "a"))]) (lit "not a").
Proof.
  exists [], [], (lit "not a"). split; [constructor|]. split; [constructor|]. split; [|reflexivity]. apply (means_weaken _ _ _ _ 8); [|lia].
  apply (MNot _ _ _ _ (EProp (lit "a")) (lit "a") [32]); [apply (means_weaken _ _ _ _ 10); [exact demo_means_a|lia]|exact sp1].
Qed.

(** a sub b sub 5 eq b is ((a sub b) sub 5) eq b *)
Example C143_nonvacuous : meaning
  (EOp false OEq [Some (EOp false OSub [Some (EOp false OSub [Some (EProp (lit "a")); Some (EProp (lit "b"))]);
                                        Some (ELit (mkV (Some TInt32) (Some (PInt 5))))]); Some (EProp (lit "b"))])
  (lit " a sub b sub 5 eq b ").
Proof.
  pose proof demo_means_a as Ma. pose proof demo_means_b as Mb.
  exists [32], [32], (lit "a sub b sub 5 eq b"). split; [repeat constructor|]. split; [repeat constructor|]. split; [|reflexivity].
  apply (means_weaken _ _ _ _ 4); [|lia].
  apply (MBinary _ _ _ _ OEq 4 (lit "eq") _ _ (lit "a sub b sub 5") (lit "b") [32] [32]); try exact sp1; [cbn; auto 20| |apply (means_weaken _ _ _ _ 10); [exact Mb|lia]].
  apply (means_weaken _ _ _ _ 6); [|lia].
  apply (MBinary _ _ _ _ OSub 6 (lit "sub") _ _ (lit "a sub b") (lit "5") [32] [32]); try exact sp1; [cbn; auto 20| |apply (means_weaken _ _ _ _ 10); [|lia]].
  - apply (MBinary _ _ _ _ OSub 6 (lit "sub") _ _ (lit "a") (lit "b") [32] [32]); try exact sp1; [cbn; auto 20| |];
      (apply (means_weaken _ _ _ _ 10); [assumption|lia]).
  - apply MLit. apply (plain_literal demo_number demo_quoted demo_show (mkV (Some TInt32) (Some (PInt 5)))). cbn. lia.
Qed.
Example C143_example : read (lit "a sub b sub 5 eq b or not startswith(c/d,'it''s')") =
  Ok (EOp false OOr
    [Some (EOp false OEq [Some (EOp false OSub [Some (EOp false OSub [Some (EProp (lit "a")); Some (EProp (lit "b"))]);
                                                Some (ELit (mkV (Some TInt32) (Some (PInt 5))))]); Some (EProp (lit "b"))]);
     Some (EOp true ONot [Some (ECall (lit "startswith") [EOp false OMember [Some (EProp (lit "c")); Some (EProp (lit "d"))];
                                                         ELit (mkV (Some TString) (Some (PStr (lit "it's"))))])])]).
Proof. vm_compute. reflexivity. Qed.

(** A unary expression cannot be put in brackets *)
Theorem C143_brackets_refuted : ~ forall e s, meaning e s -> read (40 :: s ++ [41]) = Ok e.
Proof. intros H. specialize (H _ _ demo_not_a). vm_compute in H. discriminate. Qed.
(** nor be the operand of another *)
Theorem C143_unary_refuted : ~ forall e s, meaning e s -> is_unary e = true -> read (lit "not " ++ s) = Ok (EOp true ONot [Some e]).
Proof. intros H. specialize (H _ _ demo_not_a eq_refl). vm_compute in H. discriminate. Qed.
(** Some properties cannot be named *)
Theorem C143_names_refuted : ~ forall n, identifier demo_letter demo_id n -> In n [lit "Time"; lit "Guid"; lit "X"; lit "Null"] -> read n = Ok (EProp n).
Proof.
  intros H. specialize (H (lit "Time") (demo_ident (lit "Time") eq_refl ltac:(discriminate)) ltac:(cbn; auto)). vm_compute in H. discriminate.
Qed.

(** ** C144: what should have been refused *)
Lemma prop_texts n e s x : means demo_number demo_quoted demo_letter demo_id n e s -> e = EProp x -> s = x \/ exists t, s = t ++ [41].
Proof.
  intros H. induction H; intros E; try discriminate.
  - inversion E. left. reflexivity.
  - right. exists (40 :: w1 ++ s ++ w2). cbn [app]. rewrite <- !app_assoc. reflexivity.
  - auto.
Qed.
(** A text with a missing bracket is read *)
Theorem C144_brackets_refuted : ~ forall s e, read s = Ok e -> meaning e s.
Proof.
  intros H. specialize (H (lit "(a") (EProp (lit "a")) ltac:(vm_compute; reflexivity)).
  destruct H as (w1 & w2 & t & Hw1 & Hw2 & M & E).
  destruct Hw1 as [|c w1 Hc Hw1]; [|cbn [app] in E; inversion E; subst; lia]. cbn [app] in E.
  destruct (prop_texts _ _ _ _ M eq_refl) as [-> |(u & ->)]; [cbn in E; discriminate|].
  rewrite <- app_assoc in E. cbn [app] in E. assert (In 41 (lit "(a")) as Hin by (rewrite E; apply in_or_app; right; left; reflexivity).
  cbn in Hin. lia.
Qed.
(** and one without an operand gives an expression without one *)
Fixpoint whole {X} (e : expr X) : bool :=
  match e with
  | ELit _ | EProp _ => true
  | ECall _ l => forallb whole l
  | EOp _ _ l => forallb (fun x => match x with Some e => whole e | None => false end) l
  end.
Theorem C144_operands_refuted : ~ forall s e, read s = Ok e -> whole e = true.
Proof.
  intros H. destruct (read (lit "not not a")) as [e|] eqn:E; [|vm_compute in E; discriminate].
  specialize (H _ _ E). vm_compute in E. inversion E; subst e. discriminate.
Qed.
Example C144_example : read (lit "a eq eq") = Ok (EOp false OEq [Some (EProp (lit "a")); Some (EProp (lit "eq"))])
  /\ read (lit "a b") = Err ValueError /\ read (lit "") = Err ValueError /\ read (lit "a eq ") = Err ValueError /\ read (lit "tolower()") = Err ValueError.
Proof. vm_compute. repeat split; reflexivity. Qed.
Example C144_nonvacuous : meaning (EProp (lit "a")) (lit "a") /\ continues_nothing demo_letter demo_id (lit "b eq 1") /\ spaces [32].
Proof.
  split; [exists [], [], (lit "a"); repeat split; [constructor|constructor|apply (means_weaken _ _ _ _ 10); [exact demo_means_a|lia]]|].
  split; [|repeat constructor]. apply (CNword _ _ (lit "b") (lit " eq 1")).
  - apply Id1; [reflexivity|constructor].
  - vm_compute. intuition discriminate.
  - cbn. split; [reflexivity|discriminate].
Qed.

(** ** C145 *)
Example C145_nonvacuous : orderby_means demo_number demo_quoted demo_letter demo_id
  [(EProp (lit "a"), true); (EProp (lit "b"), false)] (lit "a desc, b").
Proof.
  apply (OCons _ _ _ _ (EProp (lit "a")) (lit "a") true (lit " desc") [] [] [(EProp (lit "b"), false)] (lit " b")).
  - apply (means_weaken _ _ _ _ 10); [exact demo_means_a|lia].
  - right. exists [32], (lit "desc"). repeat split; [repeat constructor|discriminate|]. apply word_lower; reflexivity.
  - constructor.
  - constructor.
  - apply (O1 _ _ _ _ (EProp (lit "b")) (lit "b") false [] [32] []).
    + apply (means_weaken _ _ _ _ 10); [exact demo_means_b|lia].
    + left. auto.
    + repeat constructor.
    + constructor.
Qed.

(** ** C146 *)
Definition pr := printable demo_number demo_quoted demo_show demo_letter demo_id.
(** (a or b) and -b mul (a sub b) *)
Example C146_nonvacuous : pr
  (EOp false OAnd [Some (EOp false OOr [Some (EProp (lit "a")); Some (EProp (lit "b"))]);
                   Some (EOp false OMul [Some (EOp true ONegate [Some (EProp (lit "b"))]); Some (EOp false OSub [Some (EProp (lit "a")); Some (EProp (lit "b"))])])]).
Proof.
  assert (pr (EProp (lit "a"))) as Pa by (destruct (demo_prop (lit "a")); try reflexivity; [discriminate|apply PProp; assumption]).
  assert (pr (EProp (lit "b"))) as Pb by (destruct (demo_prop (lit "b")); try reflexivity; [discriminate|apply PProp; assumption]).
  apply (PBinary _ _ _ _ _ OAnd 3 (lit "and")); [cbn; auto 20| | |reflexivity|cbn; lia].
  - apply (PBinary _ _ _ _ _ OOr 2 (lit "or")); [cbn; auto 20|exact Pa|exact Pb|cbn; lia|cbn; lia].
  - apply (PBinary _ _ _ _ _ OMul 7 (lit "mul")); [cbn; auto 20| | |cbn; lia|reflexivity].
    + apply (PNegate _ _ _ _ _ _ (lit "b") Pb); [cbn; lia|reflexivity|]. intros _ [H|(x & y & E & [H|H])]; [cbn in H; lia|..];
        apply word_len in H; apply (f_equal (@length Z)) in E; rewrite app_length, H in E; cbn in E; lia.
    + apply (PBinary _ _ _ _ _ OSub 6 (lit "sub")); [cbn; auto 20|exact Pa|exact Pb|cbn; lia|cbn; lia].
Qed.
Definition shown := text str demo_show.
(** Brackets around the right operand are lost *)
Theorem C146_right_refuted : ~ forall s e t, read s = Ok e -> shown e = Ok t -> read t = Ok e.
Proof.
  intros H.
  assert (exists e, read (lit "a sub (b sub c)") = Ok e /\ shown e = Ok (lit "a sub b sub c") /\ read (lit "a sub b sub c") <> Ok e) as (e & H1 & H2 & H3).
  { eexists. split; [vm_compute; reflexivity|]. split; [vm_compute; reflexivity|]. vm_compute. discriminate. }
  exact (H3 (H _ _ _ H1 H2)).
Qed.
(** An expression that was read cannot always be written *)
Theorem C146_write_refuted : ~ forall s e, read s = Ok e -> exists t, shown e = Ok t.
Proof.
  intros H. destruct (H (lit "isof('Edm.String')") (EOp false OIsof [Some (ELit (mkV (Some TString) (Some (PStr (lit "Edm.String")))))])) as (t & Ht);
    [vm_compute; reflexivity|]. vm_compute in Ht. discriminate.
Qed.
(** A negated number comes back as another expression *)
Theorem C146_negate_refuted : ~ forall s e t, read s = Ok e -> shown e = Ok t -> is_unary e = true -> read t = Ok e.
Proof.
  intros H. specialize (H (lit "- 5") (EOp true ONegate [Some (ELit (mkV (Some TInt32) (Some (PInt 5))))]) (lit "-5") ltac:(vm_compute; reflexivity) ltac:(vm_compute; reflexivity) eq_refl).
  vm_compute in H. discriminate.
Qed.
Print Assumptions C143_reads_partial.
Print Assumptions C143_unambiguous.
Print Assumptions C143_brackets_refuted.
Print Assumptions C143_unary_refuted.
Print Assumptions C143_names_refuted.
Print Assumptions C144_error_partial.
Print Assumptions C144_trailing_partial.
Print Assumptions C144_brackets_refuted.
Print Assumptions C144_operands_refuted.
Print Assumptions C145_reads.
Print Assumptions C145_total.
Print Assumptions C145_round_partial.
Print Assumptions C146_round_partial.
Print Assumptions C146_literals.
Print Assumptions C146_right_refuted.
Print Assumptions C146_write_refuted.
Print Assumptions C146_negate_refuted.
