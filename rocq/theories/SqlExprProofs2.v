(** Proofs about SqlExpr.v: the text of an expression. *)
From Coq Require Import Lia Arith.
From Verif Require Import Py Iso Dec OdExpr OdEval OdEvalSpec SqlExpr SqlExprSpec SqlExprProofs.
Open Scope Z_scope.
Open Scope list_scope.

(** ** The tokens of a tree *)
Definition wrap (b : bool) (ts : list tok) : list tok := if b then KOpen :: ts ++ [KClose] else ts.
Fixpoint show (c : nat) (t : sql) : list tok :=
  match t with
  | SCol [a] => [KId a]
  | SCol [a; b] => [KId a; KDot; KId b]
  | SCol _ => [KBad]
  | SName w => [KWord w]
  | SMark _ => [KMark]
  | SStr s => [KStr s]
  | SBin o a b => wrap (class o <? c)%nat (show (class o) a ++ op_tok o :: show (class o) b)
  | SFun f a => KWord f :: KOpen :: show 0 a ++ [KClose]
  | SFun2 f a b => KWord f :: KOpen :: show 0 a ++ KComma :: show 0 b ++ [KClose]
  | SExtract f a => KWord (lit "EXTRACT") :: KOpen :: KWord f :: KWord (lit "FROM") :: show 0 a ++ [KClose]
  | SPosition a b => KWord (lit "POSITION") :: KOpen :: show 0 a ++ KWord (lit "IN") :: show 0 b ++ [KClose]
  | SCast a f => KWord (lit "CAST") :: KOpen :: show 0 a ++ [KWord (lit "AS"); KWord f; KClose]
  end.
Fixpoint good (t : sql) : Prop :=
  match t with
  | SCol [_] | SCol [_; _] => True
  | SCol _ => False
  | SBin _ a b | SPosition a b => good a /\ good b
  | SFun f a => plain_word f /\ good a
  | SFun2 f a b => plain_word f /\ good a /\ good b
  | SExtract _ a | SCast a _ => good a
  | _ => True
  end.
Definition head (c : nat) (t : sql) : option bop :=
  match t with SBin o _ _ => if (class o <? c)%nat then None else Some o | _ => None end.
Lemma seq_split (l1 l2 : list nat) k n : l1 ++ l2 = seq k n ->
  l1 = seq k (length l1) /\ l2 = seq (k + length l1) (length l2) /\ n = (length l1 + length l2)%nat.
Proof.
  revert k n. induction l1 as [|a l1 IH]; intros k n H; cbn [app length] in *.
  - split; [reflexivity|]. rewrite Nat.add_0_r, H, seq_length. auto.
  - destruct n as [|n]; [discriminate|]. cbn [seq] in *. injection H as -> H. destruct (IH _ _ H) as (A & B & ->).
    rewrite <- A. split; [reflexivity|]. split; [|lia]. rewrite B at 1. f_equal; lia.
Qed.
Section Show.
Variable strength : bop -> nat.
Hypothesis usual_strength : usual strength.
Lemma shows_show t : good t -> clear strength t -> forall k n, marks t = seq k n -> forall c, shows strength (head c t) k t (show c t) (k + n).
Proof.
  induction t as [path|w|m|s|o a IHa b IHb|f a IHa|f a IHa b IHb|f a IHa|a IHa b IHb|a IHa f]; intros G C k n M c;
    cbn [good clear marks show head] in *.
  - destruct n; [|discriminate]. rewrite Nat.add_0_r. destruct path as [|x [|y [|]]]; try contradiction; constructor.
  - destruct n; [|discriminate]. rewrite Nat.add_0_r. constructor.
  - destruct n as [|[|]]; try discriminate. cbn [seq] in M. injection M as ->. rewrite Nat.add_1_r. constructor.
  - destruct n; [|discriminate]. rewrite Nat.add_0_r. constructor.
  - destruct G as [Ga Gb], C as (Cl & Cr & Ca & Cb). destruct (seq_split _ _ _ _ M) as (Ma & Mb & ->).
    assert (B : shows strength (Some o) k (SBin o a b) (show (class o) a ++ op_tok o :: show (class o) b) (k + (length (marks a) + length (marks b)))).
    { rewrite Nat.add_assoc. eapply Sh_bin; [exact (IHa Ga Ca _ _ Ma (class o))|exact (IHb Gb Cb _ _ Mb (class o))| |].
      - destruct a; cbn [head ok_left]; try exact I. cbn [left_clear] in Cl.
        destruct (Nat.ltb_spec (class o0) (class o)) as [L|L]; [exact I|].
        destruct (Nat.eq_dec (class o0) (class o)) as [E|E]; [exact (Cl E)|]. cbn [ok_left]. assert (H := proj1 usual_strength o o0). lia.
      - destruct b; cbn [head ok_right]; try exact I. cbn [right_clear] in Cr.
        destruct (Nat.ltb_spec (class o0) (class o)) as [L|L]; [exact I|].
        destruct (Nat.eq_dec (class o0) (class o)) as [E|E]; [exact (Cr E)|]. cbn [ok_right]. assert (H := proj1 usual_strength o o0). left. lia. }
    unfold wrap. destruct (class o <? c)%nat; [|exact B]. eapply Sh_br. exact B.
  - destruct G as [P G]. eapply Sh_fun; [exact P|exact (IHa G C _ _ M 0%nat)].
  - destruct G as (P & Ga & Gb), C as [Ca Cb]. destruct (seq_split _ _ _ _ M) as (Ma & Mb & ->). rewrite Nat.add_assoc.
    eapply Sh_fun2; [assumption|exact (IHa Ga Ca _ _ Ma 0%nat)|exact (IHb Gb Cb _ _ Mb 0%nat)].
  - eapply Sh_extract. exact (IHa G C _ _ M 0%nat).
  - destruct G as (Ga & Gb), C as [Ca Cb]. destruct (seq_split _ _ _ _ M) as (Ma & Mb & ->). rewrite Nat.add_assoc.
    eapply Sh_position; [exact (IHa Ga Ca _ _ Ma 0%nat)|exact (IHb Gb Cb _ _ Mb 0%nat)].
  - eapply Sh_cast. exact (IHa G C _ _ M 0%nat).
Qed.
End Show.

(** ** The text *)
Section Text.
Context {O : Type}.
Variable other : edm_type -> pyv -> result O.
Variable sqlite qualifyNames : bool.
Variable tableName : str.
Variable mangledNames : list str -> option str.
Variable entityType : list (str * pdef).
Notation V := (@sqlv O).
Notation SQL := (SQLExpression other sqlite qualifyNames tableName mangledNames entityType).
Hypothesis names_quoted : forall p f, mangledNames p = Some f -> exists n, quoted_as f n.
Hypothesis table_quoted : exists n, quoted_as tableName n.
Definition column : list str -> list str -> Prop := column_of mangledNames (if qualifyNames then Some tableName else None).
Definition functions := if sqlite then sqlite_functions else standard_functions.
Definition nav (n : str) : Prop := declared entityType n = Some PNav.
Notation stands' := (stands functions column (param_of other)).

Definition prec (o : sqlop) : nat := Z.to_nat (SQLOperatorPrecedence o).
Definition bop_of (o : sqlop) : bop :=
  match o with
  | QOr => BOr | QAnd => BAnd | QEq => BEq | QNe => BNe | QLt => BLt | QGt => BGt | QLe => BLe | QGe => BGe | QLike => BLike
  | QPlus => BPlus | QMinus => BMinus | QTimes => BTimes | QDivide => BDivide | QComma | QNot => BOr
  end.
Definition binary_op (o : sqlop) : Prop := o <> QComma /\ o <> QNot.
Lemma class_prec o : binary_op o -> class (bop_of o) = prec o.
Proof. intros [H1 H2]. destruct o; try reflexivity; contradiction. Qed.
Definition does (g : gen) (Q : list V -> sql -> Prop) : Prop := forall ps ctx os ps', g ps ctx = Ok (os, ps') ->
  exists s t vals, os = Some s /\ ps' = ps ++ vals /\ closed s /\ lex s = show (prec ctx) t /\ good t /\
    marks t = seq (length ps) (length vals) /\ Q ps' t.
Definition mono (Q : list V -> sql -> Prop) : Prop := forall ps qs t, Q ps t -> Q (ps ++ qs) t.

Lemma bracket_gt q c o : SQLBracket q c o = if (prec o <? prec c)%nat then lit "(" ++ q ++ lit ")" else q.
Proof.
  unfold SQLBracket, prec. replace (SQLOperatorPrecedence c >? SQLOperatorPrecedence o) with (Z.to_nat (SQLOperatorPrecedence o) <? Z.to_nat (SQLOperatorPrecedence c))%nat; [reflexivity|].
  destruct c, o; reflexivity.
Qed.
Lemma bracket_lex q c o ts : closed q -> lex q = ts ->
  closed (SQLBracket q c o) /\ lex (SQLBracket q c o) = wrap (prec o <? prec c)%nat ts.
Proof.
  intros C L. rewrite bracket_gt. unfold wrap. destruct (prec o <? prec c)%nat; [|auto].
  change (lit "(" ++ q ++ lit ")") with ([] ++ 40 :: q ++ 41 :: []). split.
  - apply closed_cut; [exact closed_nil|cbn; tauto|]. apply closed_cut; [exact C|cbn; tauto|exact closed_nil].
  - rewrite lex_cut; [|exact closed_nil|cbn; tauto]. rewrite lex_cut; [|exact C|cbn; tauto]. rewrite L. reflexivity.
Qed.
(** [a], a word or an operator between blanks, [b] *)
Lemma infix_lex a w b t : closed a -> closed b -> closed w -> lex w = [t] ->
  closed (a ++ 32 :: w ++ 32 :: b) /\ lex (a ++ 32 :: w ++ 32 :: b) = lex a ++ t :: lex b.
Proof.
  intros A B W L. split.
  - apply closed_cut; [exact A|cbn; tauto|]. apply closed_cut; [exact W|cbn; tauto|exact B].
  - rewrite lex_cut; [|exact A|cbn; tauto]. rewrite lex_cut; [|exact W|cbn; tauto]. rewrite L. reflexivity.
Qed.
Lemma op_lex o : binary_op o -> closed (sqlop_text o) /\ lex (sqlop_text o) = [op_tok (bop_of o)].
Proof. intros [H1 H2]. destruct o; try contradiction; split; (exact I || reflexivity). Qed.

(** two expressions around an operator *)
Lemma does_two (ga gb : gen) Qa Qb (bo : bop) (o : sqlop) w : does ga Qa -> does gb Qb -> mono Qa ->
  class bo = prec o -> closed w -> lex w = [op_tok bo] ->
  does (fun ps ctx => '(a, ps) <- ga ps o ;; '(b, ps) <- gb ps o ;; a <- joined a ;; b <- joined b ;;
                      Ok (Some (SQLBracket (a ++ 32 :: w ++ 32 :: b) ctx o), ps))
       (fun ps t => exists a b, t = SBin bo a b /\ Qa ps a /\ Qb ps b).
Proof.
  intros Ha Hb Ma E Cw Lw ps ctx os ps'.
  destruct (ga ps o) as [[oa ps1]|x] eqn:Ea; [|discriminate]. cbn [bind].
  destruct (gb ps1 o) as [[ob ps2]|x] eqn:Eb; [|discriminate]. cbn [bind].
  destruct (Ha _ _ _ _ Ea) as (a & ta & va & -> & -> & Ca & La & Gda & Mka & Qa').
  destruct (Hb _ _ _ _ Eb) as (b & tb & vb & -> & -> & Cb & Lb & Gdb & Mkb & Qb').
  cbn [joined bind]. intros H. injection H as <- <-.
  destruct (infix_lex a w b _ Ca Cb Cw Lw) as [C L].
  destruct (bracket_lex _ ctx o _ C L) as [C' L'].
  eexists _, (SBin bo ta tb), (va ++ vb). split; [reflexivity|]. split; [now rewrite app_assoc|]. split; [exact C'|]. split.
  - rewrite L'. cbn [show]. rewrite E, La, Lb. reflexivity.
  - split; [now split|]. split.
    + cbn [marks]. rewrite Mka, Mkb, !app_length, seq_app. reflexivity.
    + exists ta, tb. split; [reflexivity|]. split; [apply Ma, Qa'|exact Qb'].
Qed.
Lemma does_binary ga gb Qa Qb o : does ga Qa -> does gb Qb -> mono Qa -> binary_op o ->
  does (GenericBinary [ga; gb] o) (fun ps t => exists a b, t = SBin (bop_of o) a b /\ Qa ps a /\ Qb ps b).
Proof.
  intros Ha Hb Ma B. destruct (op_lex o B) as [C L].
  exact (does_two ga gb Qa Qb (bop_of o) o (sqlop_text o) Ha Hb Ma (class_prec o B) C L).
Qed.
Lemma does_concat ga gb Qa Qb : does ga Qa -> does gb Qb -> mono Qa ->
  does (SQLExpressionConcat [ga; gb]) (fun ps t => exists a b, t = SBin BConcat a b /\ Qa ps a /\ Qb ps b).
Proof. intros Ha Hb Ma. exact (does_two ga gb Qa Qb BConcat QTimes (lit "||") Ha Hb Ma eq_refl I eq_refl). Qed.
Lemma does_like ga gb Qa Qb : does ga Qa -> does gb Qb -> mono Qa ->
  does (like ga gb) (fun ps t => exists a b, t = SBin BLike a b /\ Qa ps a /\ Qb ps b).
Proof. intros Ha Hb Ma. exact (does_two ga gb Qa Qb BLike QLike (lit "LIKE") Ha Hb Ma eq_refl I eq_refl). Qed.
Lemma does_percent : does percent (fun _ t => t = any).
Proof.
  intros ps ctx os ps' H. injection H as <- <-. exists (lit "'%'"), any, []. rewrite app_nil_r.
  repeat split; exact I || reflexivity.
Qed.
Lemma does_position ga gb Qa Qb : does ga Qa -> does gb Qb -> mono Qa ->
  does (SQLExpressionIndexof [ga; gb]) (fun ps t => exists a b, t = SPosition a b /\ Qa ps a /\ Qb ps b).
Proof.
  intros Ha Hb Ma ps ctx os ps'. unfold SQLExpressionIndexof. cbn [nth_op nth_error].
  destruct (ga ps QComma) as [[oa ps1]|x] eqn:Ea; [|discriminate]. cbn [bind].
  destruct (gb ps1 QComma) as [[ob ps2]|x] eqn:Eb; [|discriminate]. cbn [bind].
  destruct (Ha _ _ _ _ Ea) as (a & ta & va & -> & -> & Ca & La & Gda & Mka & Qa').
  destruct (Hb _ _ _ _ Eb) as (b & tb & vb & -> & -> & Cb & Lb & Gdb & Mkb & Qb').
  cbn [joined bind]. intros H. injection H as <- <-.
  change (80 :: 79 :: 83 :: 73 :: 84 :: 73 :: 79 :: 78 :: 40 :: a ++ 32 :: 73 :: 78 :: 32 :: b ++ [41])
    with (lit "POSITION" ++ 40 :: a ++ 32 :: lit "IN" ++ 32 :: b ++ 41 :: []).
  assert (Cin : closed (b ++ 41 :: [])) by (apply closed_cut; [exact Cb|cbn; tauto|exact closed_nil]).
  destruct (infix_lex a (lit "IN") (b ++ 41 :: []) (KWord (lit "IN")) Ca Cin I eq_refl) as [C L].
  eexists _, (SPosition ta tb), (va ++ vb). split; [reflexivity|]. split; [now rewrite app_assoc|]. split.
  { apply closed_cut; [exact I|cbn; tauto|exact C]. }
  split.
  - rewrite lex_cut; [|exact I|cbn; tauto]. rewrite L. rewrite lex_cut; [|exact Cb|cbn; tauto]. rewrite La, Lb. reflexivity.
  - split; [now split|]. split.
    + cbn [marks]. rewrite Mka, Mkb, !app_length, seq_app. reflexivity.
    + exists ta, tb. split; [reflexivity|]. split; [apply Ma, Qa'|exact Qb'].
Qed.
(** a text that is put around an argument *)
Definition frames (before after : string) (f : sql -> sql) : Prop := forall a t, closed a -> lex a = show 0 t -> good t ->
  closed (lit before ++ a ++ lit after) /\ (forall c, lex (lit before ++ a ++ lit after) = show c (f t)) /\ good (f t) /\ marks (f t) = marks t.
Lemma does_around strict before after f g Q : frames before after f -> does g Q ->
  does (around strict before after [g]) (fun ps t => exists a, t = f a /\ Q ps a).
Proof.
  intros Fr Hg ps ctx os ps'. unfold around. cbn [nth_op nth_error].
  destruct (g ps QComma) as [[oa ps1]|x] eqn:Ea; [|discriminate]. cbn [bind].
  destruct (Hg _ _ _ _ Ea) as (a & t & va & -> & -> & Ca & La & Gda & Mka & Q').
  replace (if strict then joined (Some a) else Ok (percent_s (Some a))) with (Ok a) by (destruct strict; reflexivity).
  cbn [bind]. intros H. injection H as <- <-.
  destruct (Fr a t Ca La Gda) as (C & L & G & M).
  exists (lit before ++ a ++ lit after), (f t), va. rewrite M. repeat split; auto. exists t. auto.
Qed.
Lemma frames_fun w : forallb letter (lit w) = true -> w <> ""%string -> lit w <> lit "EXTRACT" -> frames (w ++ "(") ")" (SFun (lit w)).
Proof.
  intros H N E a t C L G.
  assert (W : forall acc l, forallb letter l = true -> lex_run (LWord acc) l = ([], LWord (acc ++ l))).
  { intros acc l. revert acc. induction l as [|c l IH]; intros acc Hl; cbn [lex_run]; [now rewrite app_nil_r|].
    cbn [forallb] in Hl. apply andb_prop in Hl. destruct Hl as [Hc Hl]. cbn [lex_step]. unfold word_char. rewrite Hc. cbn [orb].
    rewrite IH by exact Hl. now rewrite <- app_assoc. }
  assert (R : lex_run L0 (lit w) = ([], LWord (lit w))).
  { destruct w as [|x w]; [contradiction|]. cbn [lit forallb] in H |- *. apply andb_prop in H. destruct H as [Hc Hl].
    cbn [lex_run lex_step]. assert (S : start (Z.of_nat (nat_of_ascii x)) = ([], LWord [Z.of_nat (nat_of_ascii x)])).
    { unfold letter, between in Hc. unfold start, letter, between.
      set (c := Z.of_nat (nat_of_ascii x)) in *.
      repeat match goal with |- context [c =? ?n] => destruct (Z.eqb_spec c n) as [->|]; [try discriminate Hc|] end; try reflexivity.
      all: try (rewrite orb_false_r in *). all: try (now rewrite Hc). all: try (now rewrite Hc by lia). }
    rewrite S. rewrite (W [_] (lit w) Hl). reflexivity. }
  assert (Cw : closed (lit w)) by (unfold closed; now rewrite R).
  assert (Lw : lex (lit w) = [KWord (lit w)]) by (unfold lex; now rewrite R).
  assert (Eq : lit (w ++ "(") = lit w ++ 40 :: []).
  { clear. induction w as [|x w IH]; [reflexivity|]. cbn [lit String.append app]. now rewrite IH. }
  rewrite Eq, <- app_assoc. change (([40] ++ a ++ lit ")")) with (40 :: a ++ 41 :: []). split; [|split; [|split; [now split|reflexivity]]].
  - apply closed_cut; [exact Cw|cbn; tauto|]. apply closed_cut; [exact C|cbn; tauto|exact closed_nil].
  - intros c. rewrite lex_cut; [|exact Cw|cbn; tauto]. rewrite lex_cut; [|exact C|cbn; tauto]. rewrite Lw, L. reflexivity.
Qed.
Lemma frames_extract w b : In (w, b) [("YEAR", "EXTRACT(YEAR FROM "); ("MONTH", "EXTRACT(MONTH FROM "); ("DAY", "EXTRACT(DAY FROM ");
    ("HOUR", "EXTRACT(HOUR FROM "); ("MINUTE", "EXTRACT(MINUTE FROM "); ("SECOND", "EXTRACT(SECOND FROM ")]%string ->
  frames b ")" (SExtract (lit w)).
Proof.
  intros H a t C L G.
  assert (Eq : lit b ++ a ++ lit ")" = lit "EXTRACT" ++ 40 :: lit w ++ 32 :: lit "FROM" ++ 32 :: a ++ 41 :: []).
  { cbn [In] in H. repeat (destruct H as [H|H]; [injection H as <- <-; reflexivity|]). contradiction. }
  assert (W : closed (lit w) /\ lex (lit w) = [KWord (lit w)]).
  { cbn [In] in H. repeat (destruct H as [H|H]; [injection H as <- <-; split; [exact I|reflexivity]|]). contradiction. }
  destruct W as [Cw Lw]. rewrite Eq.
  assert (Ca : closed (a ++ 41 :: [])) by (apply closed_cut; [exact C|cbn; tauto|exact closed_nil]).
  destruct (infix_lex (lit w) (lit "FROM") (a ++ 41 :: []) (KWord (lit "FROM")) Cw Ca I eq_refl) as [C2 L2].
  split; [|split; [|split; [exact G|reflexivity]]].
  - apply closed_cut; [exact I|cbn; tauto|exact C2].
  - intros c. rewrite lex_cut; [|exact I|cbn; tauto]. rewrite L2. rewrite lex_cut; [|exact C|cbn; tauto]. rewrite Lw, L. reflexivity.
Qed.
Lemma frames_time f b : In (f, b) [("%Y", "CAST(strftime('%Y',"); ("%m", "CAST(strftime('%m',"); ("%d", "CAST(strftime('%d',");
    ("%H", "CAST(strftime('%H',"); ("%M", "CAST(strftime('%M',"); ("%S", "CAST(strftime('%S',")]%string ->
  frames b ") AS INTEGER)" (time_part f).
Proof.
  intros H a t C L G.
  assert (Eq : lit b ++ a ++ lit ") AS INTEGER)" =
    lit "CAST" ++ 40 :: lit "strftime" ++ 40 :: ([39] ++ lit f ++ [39]) ++ 44 :: a ++ 41 :: [] ++ 32 :: lit "AS" ++ 32 :: lit "INTEGER" ++ 41 :: []).
  { cbn [In] in H. repeat (destruct H as [H|H]; [injection H as <- <-; reflexivity|]). contradiction. }
  assert (W : closed ([39] ++ lit f ++ [39]) /\ lex ([39] ++ lit f ++ [39]) = [KStr (lit f)]).
  { cbn [In] in H. repeat (destruct H as [H|H]; [injection H as <- <-; split; [exact I|reflexivity]|]). contradiction. }
  destruct W as [Cw Lw]. rewrite Eq.
  split; [|split; [|split; [|reflexivity]]].
  - repeat (apply closed_cut; [exact I || exact Cw || exact C|cbn; tauto|]). exact I.
  - intros c. do 6 (rewrite lex_cut; [|exact I || exact Cw || exact C|cbn; tauto]).
    rewrite Lw, L. change (lex (lit "INTEGER" ++ 41 :: [])) with [KWord (lit "INTEGER"); KClose].
    unfold time_part. cbn [show app]. rewrite <- ?app_assoc. cbn [app]. rewrite <- ?app_assoc. reflexivity.
  - cbn [time_part good]. split; [discriminate|]. split; [exact I|exact G].
Qed.

(** ** Every expression *)
Definition stands_mono : forall t e ps qs, stands' ps t e -> stands' (ps ++ qs) t e.
Proof.
  intros t e ps qs H. induction H; econstructor; eauto.
  rewrite nth_error_app1; [assumption|]. apply nth_error_Some. congruence.
Qed.
Lemma mono_stands e : mono (fun ps t => stands' ps t e).
Proof. intros ps qs t. apply stands_mono. Qed.
Lemma does_weaken g (Q Q' : list V -> sql -> Prop) : (forall ps t, Q ps t -> Q' ps t) -> does g Q -> does g Q'.
Proof. intros H D ps ctx os ps' E. destruct (D _ _ _ _ E) as (s & t & v & ?). exists s, t, v. intuition. Qed.

Lemma prepare_param v p : PrepareSQLValue other v = Ok p -> param_of other v p.
Proof.
  destruct v as [t [x|]]; cbn [PrepareSQLValue v_val v_type]; [|intros H; injection H as <-; constructor].
  destruct t as [t|]; [|discriminate].
  assert (Oth : forall r, bind (other t x) (fun o => Ok (VOther o)) = Ok r -> ~ native t x -> param_of other (mkV (Some t) (Some x)) r).
  { intros r H N. destruct (other t x) eqn:E; [|discriminate]. injection H as <-. now constructor. }
  destruct t, x; intros H; try (apply (Oth _ H); cbn; intuition discriminate); injection H as <-; try (constructor; cbn; tauto).
Qed.
Lemma param_prepare v p : param_of other v p -> (forall o, p <> VOther o) -> PrepareSQLValue other v = Ok p.
Proof. intros [t|b|t n H|s|t x o NN H] N; try reflexivity; [|now destruct (N o)]. cbn in H. destruct H as [<-|[<-|[<-|[<-|[<-|[]]]]]]; reflexivity. Qed.

Lemma qualified_column path f : mangledNames path = Some f -> exists c, column path c /\
  closed (qualified qualifyNames tableName f) /\ (forall k, lex (qualified qualifyNames tableName f) = show k (SCol c)) /\ good (SCol c).
Proof.
  intros H. destruct (names_quoted _ _ H) as [n Q]. unfold qualified, column, column_of. destruct qualifyNames.
  - destruct table_quoted as [tn T]. exists [tn; n]. split; [|split; [|split; [|exact I]]].
    + exists f, n. repeat split; auto; try apply Q. exists tn. auto.
    + change (lit "." ++ f) with (46 :: f). apply closed_cut; [now apply closed_quoted in T|cbn; tauto|now apply closed_quoted in Q].
    + intros k. change (lit "." ++ f) with (46 :: f). rewrite lex_cut; [|now apply closed_quoted in T|cbn; tauto].
      rewrite (lex_quoted _ _ T), (lex_quoted _ _ Q). reflexivity.
  - exists [n]. split; [|split; [now apply closed_quoted in Q|split; [|exact I]]].
    + exists f, n. repeat split; auto; apply Q.
    + intros k. now rewrite (lex_quoted _ _ Q).
Qed.
Lemma does_column path f e : mangledNames path = Some f -> path_of e path ->
  does (fun ps _ => Ok (Some (qualified qualifyNames tableName f), ps)) (fun ps t => stands' ps t e).
Proof.
  intros H P ps ctx os ps' E. injection E as <- <-. destruct (qualified_column _ _ H) as (c & Hc & C & L & G).
  exists (qualified qualifyNames tableName f), (SCol c), []. rewrite app_nil_r. repeat split; auto. now apply (T_property _ _ _ _ _ path).
Qed.
Lemma path_names e path : path_of e path -> member_names e = Ok path.
Proof. induction 1 as [n|a b l r _ IHa _ IHb]; [reflexivity|]. cbn [member_names bin]. rewrite IHa, IHb. reflexivity. Qed.

Lemma formed_rect (P : expr ext -> Prop) :
  (forall v, P (ELit v)) -> (forall n, ~ nav n -> P (EProp n)) ->
  (forall a b p, path_of (bin OMember a b) p -> P (bin OMember a b)) ->
  (forall o a, P (un o a)) ->
  (forall o a b, o <> OMember -> P a -> P b -> P (bin o a b)) ->
  (forall m l, In (m, length l) arities -> Forall P l -> P (call m l)) ->
  forall e, formed nav e -> P e.
Proof.
  intros H1 H2 H3 H4 H5 H6. fix F 2. intros e H. destruct H as [v|n N|a b p Pp|o a Ha|o a b N Ha Hb|m l I Hl].
  - apply H1.
  - now apply H2.
  - now apply (H3 a b p).
  - apply H4.
  - apply H5; [exact N|now apply F|now apply F].
  - apply H6; [exact I|]. clear I. induction Hl as [|x l Hx Hl IH]; constructor; [now apply F|exact IH].
Qed.
Notation gens l := (map SQL l).
Lemma op_in o q : SQLBinaryExpressionMethod o = Some q -> In (o, bop_of q) op_table /\ binary_op q.
Proof. destruct o; cbn [SQLBinaryExpressionMethod]; intros H; try discriminate; injection H as <-; split; try (split; discriminate); cbn; tauto. Qed.
Lemma sql_bin o a b : o <> OMember -> SQL (bin o a b) =
  match o with
  | OCast | OMod | OIsof => fun _ _ => Err NotImplementedError
  | _ => match SQLBinaryExpressionMethod o with Some q => GenericBinary [SQL a; SQL b] q | None => fun _ _ => Err KeyError end
  end.
Proof. destruct o; intros N; try reflexivity. contradiction. Qed.
Lemma does_err g x (Q : list V -> sql -> Prop) : (forall ps ctx, g ps ctx = Err x) -> does g Q.
Proof. intros H ps ctx os ps' E. rewrite H in E. discriminate. Qed.
Lemma function_around m f b1 b2 a2 g (Q : list V -> sql -> Prop) : In (m, f) functions ->
  (sqlite = false -> frames b1 ")" f) -> (sqlite = true -> frames b2 a2 f) -> does g Q ->
  does (base_or sqlite b1 b2 a2 [g]) (fun ps t => exists a, t = f a /\ Q ps a).
Proof.
  intros _ H1 H2 D. unfold base_or. destruct sqlite; apply does_around; auto.
Qed.
Lemma translated e : formed nav e -> does (SQL e) (fun ps t => stands' ps t e).
Proof.
  revert e. apply (formed_rect (fun e => does (SQL e) (fun ps t => stands' ps t e))).
  - intros v ps ctx os ps'. cbn [SQLExpression]. destruct (PrepareSQLValue other v) as [p|x] eqn:E; [|discriminate].
    cbn [bind AddParam]. intros H. injection H as <- <-. exists (lit "?"), (SMark (length ps)), [p].
    repeat split; auto; try exact I. apply (T_literal _ _ _ _ _ v p); [now apply prepare_param|].
    rewrite nth_error_app2 by lia. now rewrite Nat.sub_diag.
  - intros n N ps ctx os ps'. cbn [SQLExpression]. unfold property_text.
    destruct (declared entityType n) as [[| |]|] eqn:D; try discriminate; [|now destruct N].
    destruct (mangledNames [n]) as [f|] eqn:E; [|discriminate]. cbn [bind]. exact (does_column [n] f (EProp n) E (P_one n) ps ctx os ps').
  - intros a b p Pp ps ctx os ps'. change (SQL (bin OMember a b) ps ctx) with
      (s <- SQLExpressionMember qualifyNames tableName mangledNames entityType (bin OMember a b) ;; Ok (s, ps)).
    unfold SQLExpressionMember. rewrite (path_names _ _ Pp). cbn [bind].
    destruct (member_walk (Some entityType) p) as [[c|]|x]; try discriminate. cbn [bind].
    destruct (mangledNames p) as [f|] eqn:E; [|discriminate]. cbn [bind]. exact (does_column p f _ E Pp ps ctx os ps').
  - intros o a. apply (does_err _ NotImplementedError). reflexivity.
  - intros o a b N Ha Hb. rewrite sql_bin by exact N.
    destruct (SQLBinaryExpressionMethod o) as [q|] eqn:Q.
    + destruct (op_in _ _ Q) as [I B].
      replace (match o with OCast | OMod | OIsof => fun _ _ => Err NotImplementedError | _ => GenericBinary [SQL a; SQL b] q end)
        with (GenericBinary [SQL a; SQL b] q) by (destruct o; reflexivity || discriminate).
      eapply does_weaken; [|exact (does_binary _ _ _ _ q Ha Hb (mono_stands a) B)].
      intros ps t (x & y & -> & Sx & Sy). now apply T_binary with (o := o).
    + destruct o; try discriminate; eapply does_err; reflexivity.
  - intros m l I Hl.
    assert (Two : forall a b, l = [a; b] -> does (SQL a) (fun ps t => stands' ps t a) /\ does (SQL b) (fun ps t => stands' ps t b)).
    { intros a b ->. inversion_clear Hl as [|? ? Ha Hl']. inversion_clear Hl' as [|? ? Hb _]. auto. }
    assert (One : forall a, l = [a] -> does (SQL a) (fun ps t => stands' ps t a)) by (intros a ->; now inversion_clear Hl).
    assert (Fun : forall m f b1 b2 a2, In (m, f) functions -> (sqlite = false -> frames b1 ")" f) -> (sqlite = true -> frames b2 a2 f) ->
              forall a, l = [a] -> does (base_or sqlite b1 b2 a2 [SQL a]) (fun ps t => stands' ps t (call m [a]))).
    { intros m0 f b1 b2 a2 Hf H1 H2 a E. eapply does_weaken; [|exact (function_around m0 f b1 b2 a2 _ _ Hf H1 H2 (One a E))].
      intros ps t (x & -> & S). now apply T_function. }
    assert (Mp : mono (fun (_ : list V) t => t = any)) by (intros ? ? ? E; exact E).
    unfold functions in Fun.
    unfold arities in I. cbn [In] in I.
    repeat (destruct I as [I|I]; [injection I as <- Len|]); [..|contradiction];
      (destruct l as [|a [|b [|c [|]]]]; try discriminate Len); clear Len.
    + destruct (Two a b eq_refl) as [Ha Hb].
      eapply does_weaken; [|exact (does_like _ _ _ _ Ha (does_concat _ _ _ _ does_percent Hb Mp) (mono_stands a))].
      intros ps t (x & y & -> & Sx & z & w & -> & -> & Sw). now apply T_endswith.
    + destruct (Two a b eq_refl) as [Ha Hb]. eapply does_weaken; [|exact (does_position _ _ _ _ Ha Hb (mono_stands a))].
      intros ps t (x & y & -> & Sx & Sy). now apply T_indexof.
    + apply (does_err _ NotImplementedError). reflexivity.
    + destruct (Two a b eq_refl) as [Ha Hb].
      eapply does_weaken; [|exact (does_like _ _ _ _ Ha (does_concat _ _ _ _ Hb does_percent (mono_stands b)) (mono_stands a))].
      intros ps t (x & y & -> & Sx & z & w & -> & Sw & ->). now apply T_startswith.
    + change (SQL (call "tolower" [a])) with (base_or sqlite "LOWER(" "lower(" ")" [SQL a]). unfold functions. destruct sqlite eqn:Sq.
      * apply (Fun "tolower"%string (SFun (lit "lower"))); [cbn; tauto|discriminate| |reflexivity]. intros _. apply (frames_fun "lower"); discriminate || reflexivity.
      * apply (Fun "tolower"%string (SFun (lit "LOWER"))); [cbn; tauto| |discriminate|reflexivity]. intros _. apply (frames_fun "LOWER"); discriminate || reflexivity.
    + change (SQL (call "toupper" [a])) with (base_or sqlite "UPPER(" "upper(" ")" [SQL a]). unfold functions. destruct sqlite eqn:Sq.
      * apply (Fun "toupper"%string (SFun (lit "upper"))); [cbn; tauto|discriminate| |reflexivity]. intros _. apply (frames_fun "upper"); discriminate || reflexivity.
      * apply (Fun "toupper"%string (SFun (lit "UPPER"))); [cbn; tauto| |discriminate|reflexivity]. intros _. apply (frames_fun "UPPER"); discriminate || reflexivity.
    + change (SQL (call "trim" [a])) with (around (O := O) false "TRIM(" ")" [SQL a]).
      eapply does_weaken; [|exact (does_around false _ _ _ _ _ (frames_fun "TRIM" eq_refl ltac:(discriminate) ltac:(discriminate)) (One a eq_refl))].
      intros ps t (x & -> & S). apply T_function; [|exact S]. unfold functions. destruct sqlite; cbn; tauto.
    + intros ps ctx os ps'. change (SQL (call "substring" [a; b]) ps ctx) with (SQLExpressionSubstring [SQL a; SQL b] ps ctx).
      unfold SQLExpressionSubstring. destruct (nth_op _ 0 ps QComma) as [[? ?]|]; [|discriminate]. cbn [bind]. destruct (nth_op _ 1 _ QComma) as [[? ?]|]; discriminate.
    + intros ps ctx os ps'. change (SQL (call "substring" [a; b; c]) ps ctx) with (SQLExpressionSubstring [SQL a; SQL b; SQL c] ps ctx).
      unfold SQLExpressionSubstring. destruct (nth_op _ 0 ps QComma) as [[? ?]|]; [|discriminate]. cbn [bind]. destruct (nth_op _ 1 _ QComma) as [[? ?]|]; discriminate.
    + destruct (Two a b eq_refl) as [Ha Hb].
      eapply does_weaken; [|exact (does_like _ _ _ _ Hb (does_concat _ _ _ _ does_percent (does_concat _ _ _ _ Ha does_percent (mono_stands a)) Mp) (mono_stands b))].
      intros ps t (x & y & -> & Sx & z & w & -> & -> & u & v & -> & Su & ->). now apply T_substringof.
    + destruct (Two a b eq_refl) as [Ha Hb]. eapply does_weaken; [|exact (does_concat _ _ _ _ Ha Hb (mono_stands a))].
      intros ps t (x & y & -> & Sx & Sy). now apply T_concat.
    + change (SQL (call "length" [a])) with (base_or sqlite "CHAR_LENGTH(" "length(" ")" [SQL a]). unfold functions. destruct sqlite eqn:Sq.
      * apply (Fun "length"%string (SFun (lit "length"))); [cbn; tauto|discriminate| |reflexivity]. intros _. apply (frames_fun "length"); discriminate || reflexivity.
      * apply (Fun "length"%string (SFun (lit "CHAR_LENGTH"))); [cbn; tauto| |discriminate|reflexivity]. intros _. apply (frames_fun "CHAR_LENGTH"); discriminate || reflexivity.
    + change (SQL (call "year" [a])) with (base_or sqlite "EXTRACT(YEAR FROM " "CAST(strftime('%Y'," ") AS INTEGER)" [SQL a]). unfold functions. destruct sqlite eqn:Sq.
      * apply (Fun "year"%string (time_part "%Y")); [cbn; tauto|discriminate| |reflexivity]. intros _. apply frames_time; cbn; tauto.
      * apply (Fun "year"%string (SExtract (lit "YEAR"))); [cbn; tauto| |discriminate|reflexivity]. intros _. apply frames_extract; cbn; tauto.
    + change (SQL (call "month" [a])) with (base_or sqlite "EXTRACT(MONTH FROM " "CAST(strftime('%m'," ") AS INTEGER)" [SQL a]). unfold functions. destruct sqlite eqn:Sq.
      * apply (Fun "month"%string (time_part "%m")); [cbn; tauto|discriminate| |reflexivity]. intros _. apply frames_time; cbn; tauto.
      * apply (Fun "month"%string (SExtract (lit "MONTH"))); [cbn; tauto| |discriminate|reflexivity]. intros _. apply frames_extract; cbn; tauto.
    + change (SQL (call "day" [a])) with (base_or sqlite "EXTRACT(DAY FROM " "CAST(strftime('%d'," ") AS INTEGER)" [SQL a]). unfold functions. destruct sqlite eqn:Sq.
      * apply (Fun "day"%string (time_part "%d")); [cbn; tauto|discriminate| |reflexivity]. intros _. apply frames_time; cbn; tauto.
      * apply (Fun "day"%string (SExtract (lit "DAY"))); [cbn; tauto| |discriminate|reflexivity]. intros _. apply frames_extract; cbn; tauto.
    + change (SQL (call "hour" [a])) with (base_or sqlite "EXTRACT(HOUR FROM " "CAST(strftime('%H'," ") AS INTEGER)" [SQL a]). unfold functions. destruct sqlite eqn:Sq.
      * apply (Fun "hour"%string (time_part "%H")); [cbn; tauto|discriminate| |reflexivity]. intros _. apply frames_time; cbn; tauto.
      * apply (Fun "hour"%string (SExtract (lit "HOUR"))); [cbn; tauto| |discriminate|reflexivity]. intros _. apply frames_extract; cbn; tauto.
    + change (SQL (call "minute" [a])) with (base_or sqlite "EXTRACT(MINUTE FROM " "CAST(strftime('%M'," ") AS INTEGER)" [SQL a]). unfold functions. destruct sqlite eqn:Sq.
      * apply (Fun "minute"%string (time_part "%M")); [cbn; tauto|discriminate| |reflexivity]. intros _. apply frames_time; cbn; tauto.
      * apply (Fun "minute"%string (SExtract (lit "MINUTE"))); [cbn; tauto| |discriminate|reflexivity]. intros _. apply frames_extract; cbn; tauto.
    + change (SQL (call "second" [a])) with (base_or sqlite "EXTRACT(SECOND FROM " "CAST(strftime('%S'," ") AS INTEGER)" [SQL a]). unfold functions. destruct sqlite eqn:Sq.
      * apply (Fun "second"%string (time_part "%S")); [cbn; tauto|discriminate| |reflexivity]. intros _. apply frames_time; cbn; tauto.
      * apply (Fun "second"%string (SExtract (lit "SECOND"))); [cbn; tauto| |discriminate|reflexivity]. intros _. apply frames_extract; cbn; tauto.
    + apply (does_err _ NotImplementedError). reflexivity.
    + apply (does_err _ NotImplementedError). reflexivity.
    + apply (does_err _ NotImplementedError). reflexivity.
Qed.
End Text.
