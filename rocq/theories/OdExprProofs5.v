(** Proofs about the texts of expressions: what the grammar means is what the parser reads. *)
From Coq Require Import Lia ZArith List Bool.
From Verif Require Import Py Iso Dec Shapes XmlChars OdExpr OdExprSpec OdExprProofs OdExprProofs2 OdExprProofs3 OdExprProofs4.
Import ListNotations.
Open Scope Z_scope.
Open Scope list_scope.

Section Read.
Context {X : Type}.
Variable number : edm_type -> numeric -> result X.
Variable quoted : edm_type -> str -> result (X * str).
Variable start id : Z -> bool.
Hypothesis Hcl : classes start id.
Notation loop := (expr_loop X number quoted start id).
Notation after := (after start id).
Notation URI := (ParseURILiteral X number quoted start id).
Notation means := (means number quoted start id).
Notation arguments := (arguments number quoted start id).
Notation literal := (literal number quoted).

Definition lit_words : list string :=
  ["null"; "true"; "false"; "datetimeoffset"; "datetime"; "time"; "binary"; "nand"; "nanf"; "infd"; "inff"; "guid"]%string.
Lemma uri_ident_none n rest : identifier start id n -> id_end id rest ->
  (forall w, In w lit_words -> lower n <> lit w) -> n <> lit "X" -> URI (n ++ rest) = Ok None.
Proof.
  intros Hi Hr Hw HX. unfold ParseURILiteral. rewrite (ident_app _ _ Hcl n rest Hi Hr). cbv zeta.
  assert (forall w, In w lit_words -> str_eqb (lower n) (lit w) = false) as HF.
  { intros w H. destruct (str_eqb (lower n) (lit w)) eqn:E; [|reflexivity]. apply str_eqb_eq in E. destruct (Hw w H E). }
  assert (str_eqb n (lit "X") = false) as HX'.
  { destruct (str_eqb n (lit "X")) eqn:E; [|reflexivity]. apply str_eqb_eq in E. contradiction. }
  rewrite HX'. rewrite !HF by (cbn; auto 20). reflexivity.
Qed.
Lemma not_reserved n : ~ reserved n -> (forall w, In w lit_words -> lower n <> lit w) /\ n <> lit "X" /\ n <> lit "not" /\ n <> lit "isof" /\ n <> lit "cast".
Proof.
  intros H. split.
  - intros w Hw E. apply H. left. apply Exists_exists. exists w. split; [exact Hw|]. apply word_lower; [|exact E].
    cbn [lit_words In] in Hw. repeat (destruct Hw as [<- |Hw]; [reflexivity|]). destruct Hw.
  - repeat split; intros ->; apply H; right; cbn; auto.
Qed.
Lemma str_eqb_ne a b : a <> b -> str_eqb a b = false.
Proof. intros H. destruct (str_eqb a b) eqn:E; [|reflexivity]. apply str_eqb_eq in E. contradiction. Qed.

(** ** A minus sign that is not the sign of a number *)
Lemma no_prefix w u rest : length (lit w) = 3%nat -> lowercase (lit w) = true -> ~ (exists a b, u = a ++ b /\ word w a) -> stop rest ->
  skip_insensitive (lit w) (u ++ rest) = None.
Proof.
  intros Hl Hw Hn Hr. unfold skip_insensitive. rewrite Hl. destruct (str_eqb _ _) eqn:E; [|reflexivity].
  apply str_eqb_eq in E. exfalso. rewrite firstn_app in E.
  destruct (Nat.le_gt_cases 3 (length u)) as [H3|H3].
  - replace (3 - length u)%nat with O in E by lia. cbn [firstn] in E. rewrite app_nil_r in E.
    apply Hn. exists (firstn 3 u), (skipn 3 u). split; [symmetry; apply firstn_skipn|]. apply word_lower; assumption.
  - destruct rest as [|c r].
    + rewrite firstn_nil, app_nil_r in E. apply (f_equal (@length Z)) in E. unfold lower in E. rewrite map_length, firstn_length, Hl in E. lia.
    + assert (In (lower1 c) (lit w)) as Hin.
      { rewrite <- E. unfold lower. rewrite map_app. apply in_or_app. right.
        destruct (3 - length u)%nat eqn:E3; [lia|]. left. reflexivity. }
      unfold lowercase in Hw. rewrite forallb_forall in Hw. specialize (Hw _ Hin).
      cbn [stop In] in Hr. repeat (destruct Hr as [<- |Hr]; [cbv in Hw; discriminate|]). destruct Hr.
Qed.
Lemma after_sign_none u rest : ~ number_like u -> stop rest -> after_sign [45] (u ++ rest) = None.
Proof.
  intros Hn Hr. unfold after_sign.
  rewrite no_prefix; [|reflexivity|reflexivity| |exact Hr].
  2:{ intros (a & b & E & H). apply Hn. right. eauto. }
  rewrite no_prefix; [|reflexivity|reflexivity| |exact Hr].
  2:{ intros (a & b & E & H). apply Hn. right. eauto. }
  assert (match u ++ rest with [] => True | c :: _ => is_digit c = false /\ c <> 46 end) as Hh.
  { destruct u as [|c u]; cbn [app].
    - destruct rest as [|c r]; [trivial|]. cbn [stop In] in Hr. repeat (destruct Hr as [<- |Hr]; [split; [reflexivity|discriminate]|]). destruct Hr.
    - unfold is_digit. assert (~ (48 <= c <= 57 \/ c = 46)) as Hc by (intros Hc; apply Hn; left; exact Hc). lia. }
  destruct (u ++ rest) as [|c t]; [reflexivity|]. cbn [run]. destruct Hh as [-> H46].
  rewrite (not46 c t (fun s3 => let '(r, s4) := run is_digit s3 in (Some r, s4)) (None, c :: t) H46). reflexivity.
Qed.
Lemma uri_minus u rest : ~ number_like u -> stop rest -> URI (45 :: u ++ rest) = Ok None.
Proof.
  intros Hn Hr. unfold ParseURILiteral. rewrite ident_none by (apply (start_mark _ _ Hcl); cbn; auto 12).
  cbn [Z.eqb Pos.eqb orb]. rewrite numeric_sign, (after_sign_none _ _ Hn Hr). reflexivity.
Qed.

(** ** The next operator *)
Lemma next_named o n k rest : In (o, n, k) named -> id_end id rest -> next_op start id (k ++ rest) = Some (o, rest) /\ category o = n /\ 2 <= n <= 7
  /\ exists c t, k = c :: t /\ is_wsp c = false.
Proof.
  intros H Hr.
  assert (Forall (fun c => 97 <= c <= 122 \/ 65 <= c <= 90) k /\ k <> [] /\ op_of_name k = Some o /\ special o = false /\ category o = n /\ 2 <= n <= 7
    /\ exists c t, k = c :: t /\ c <> 47 /\ is_wsp c = false) as (Hk & Hn & Ho & Hs & Hc & H7 & (c & t & Ek & Hc47 & Hws)).
  { cbn [named In] in H. repeat (destruct H as [H|H]; [inversion H; subst; clear H; repeat split; try reflexivity; try discriminate; try lia;
      [repeat constructor; lia|do 2 eexists; repeat split; try reflexivity; discriminate]|]). destruct H. }
  split; [|repeat split; try assumption; try lia; eauto].
  assert (ParseSimpleIdentifier start id (k ++ rest) = Some (k, rest)) as E by (apply ident_app; auto; apply ident_letters; auto).
  unfold next_op. rewrite E, Ho, Hs. subst k. cbn [app] in *.
  clear -Hc47. destruct c as [|q|q]; try reflexivity. do 6 (destruct q as [q|q|]; try reflexivity). contradiction.
Qed.
Definition next_cat (n : Z) (rest : str) : Prop :=
  forall o s', next_op start id (wsp rest) = Some (o, s') -> category o <= n.
Lemma next_none c r : In c [41; 44] -> next_op start id (c :: r) = None.
Proof.
  intros H. assert (start c = false) as Hs by (apply (start_mark _ _ Hcl); cbn in *; intuition).
  unfold next_op. rewrite (ident_none start id (c :: r) Hs).
  destruct H as [<- |[<- |[]]]; reflexivity.
Qed.
Lemma next_nil : next_op start id [] = None.
Proof. reflexivity. Qed.

(** ** Binding *)
Definition left_ok (n : Z) (left : option (expr X)) (stk : list (expr X)) : Prop :=
  match left with None => stk = [] | Some l => cat l < n end.
Lemma bind_push n left stk x r : left_ok n left stk -> cat r = n ->
  bind_operand stk left x r = ((match x with Some y => AddOperand r (Some y) | None => r end), match left with Some l => l :: stk | None => stk end).
Proof.
  intros H Hr. destruct left as [l|]; [|destruct stk; reflexivity].
  cbn [left_ok] in H. destruct stk as [|l' stk]; cbn [bind_operand]; (destruct (cat l <? cat r) eqn:E; [reflexivity|lia]).
Qed.
Lemma after_bound L n left stk p x rest : left_ok n left stk -> cat p = n -> next_cat n rest ->
  after L (Some p) (match left with Some l => l :: stk | None => stk end) x rest = after L left stk (AddOperand p (Some x)) rest.
Proof.
  intros Hl Hp Hn. unfold OdExpr.after. destruct (next_op start id (wsp rest)) as [[o s']|] eqn:E.
  - specialize (Hn o s' E).
    assert (bind_operand (match left with Some l => l :: stk | None => stk end) (Some p) (Some x) (EOp false o [])
            = bind_operand stk left (Some (AddOperand p (Some x))) (EOp false o [])) as ->; [|reflexivity].
    assert (cat (X:=X) (EOp false o []) = category o) as Hc by reflexivity.
    destruct left as [l|].
    + cbn [bind_operand]. destruct (cat p <? cat (EOp false o [])) eqn:El; [lia|]. reflexivity.
    + cbn [left_ok] in Hl. subst stk. cbn [bind_operand]. destruct (cat p <? cat (EOp false o [])) eqn:El; [lia|]. reflexivity.
  - destruct left as [l|]; [reflexivity|]. cbn [left_ok] in Hl. subst stk. reflexivity.
Qed.

(** What may follow: and no bracket comes after white space *)
Definition follows (rest : str) : Prop := stop rest /\ match wsp rest with [] => True | c :: _ => c <> 40 end.
(** Reading [s] as an operand, whatever waits to its left and follows to its right *)
Definition reads (n : Z) (e : expr X) (s : str) : Prop :=
  forall left stk rest f r, left_ok n left stk -> follows rest -> next_cat n rest ->
    after (loop f) left stk e rest = Ok r ->
    forall w, spaces w -> exists g, loop g left stk (w ++ s ++ rest) = Ok r.
Definition starts (s : str) : Prop := match s with [] => False | c :: _ => is_wsp c = false end.
Lemma wsp_starts w s rest : spaces w -> starts s -> wsp (w ++ s ++ rest) = s ++ rest.
Proof. intros Hw Hs. rewrite wsp_spaces by exact Hw. destruct s as [|c s]; [destruct Hs|]. cbn [app]. apply wsp_id. exact Hs. Qed.
Lemma wsp_nonstart c : is_wsp c = true -> start c = false /\ id c = false.
Proof.
  unfold is_wsp. intros H. assert (In c [32; 9; 39; 40; 41; 44; 45; 46; 47]) as Hin by (cbn; lia).
  split; [exact (start_mark _ _ Hcl c Hin)|exact (cl_marks _ _ Hcl c Hin)].
Qed.
Lemma ident_starts n : identifier start id n -> starts n.
Proof.
  intros H. destruct (identifier_nonempty _ _ _ H) as (c & t & -> & Hc). cbn [starts].
  destruct (is_wsp c) eqn:E; [|reflexivity]. apply wsp_nonstart in E. destruct E. congruence.
Qed.
Lemma word_starts w s : lowercase (lit w) = true -> lit w <> [] -> word w s -> forall t, starts (s ++ t).
Proof.
  intros H1 H2 H t. pose proof (word_letters _ _ H1 H) as HL. destruct HL as [|c s Hc HL].
  - apply word_len in H. destruct (lit w); [contradiction|discriminate].
  - cbn [app starts]. unfold is_wsp. lia.
Qed.
Lemma decimal_starts n s t : decimal_text n s -> starts (s ++ t).
Proof. intros H. destruct (decimal_head n s t H) as (c & u & -> & Hc). cbn [starts]. unfold is_wsp. lia. Qed.
Lemma literal_starts v s : literal v s -> starts s.
Proof.
  intros H. destruct H.
  - rewrite <- (app_nil_r s). eapply word_starts; [| |eassumption]; [reflexivity|discriminate].
  - rewrite <- (app_nil_r s). eapply word_starts; [| |eassumption]; [reflexivity|discriminate].
  - rewrite <- (app_nil_r s). eapply word_starts; [| |eassumption]; [reflexivity|discriminate].
  - reflexivity.
  - destruct H as [-> |H]; [reflexivity|]. eapply word_starts; [| |eassumption]; [reflexivity|discriminate].
  - apply integer_decimal in H. destruct H as (sg & d & H & _). rewrite <- (app_nil_r s). eapply decimal_starts; eassumption.
  - apply integer_decimal in H. destruct H as (sg & d & H & _). eapply decimal_starts; eassumption.
  - eapply decimal_starts; eassumption.
  - cbn [In] in H. repeat (destruct H as [H|H]; [inversion H; subst; eapply word_starts; [| |eassumption]; [reflexivity|discriminate]|]). destruct H.
Qed.
Lemma methods_spec m : In m methods -> identifier start id m /\ (forall w, In w lit_words -> lower m <> lit w) /\ m <> lit "X" /\ m <> lit "not" /\ m <> lit "isof" /\ m <> lit "cast"
  /\ existsb (str_eqb m) methods = true.
Proof.
  intros H. split; [|split].
  - apply ident_letters; [exact Hcl| |]; cbn [methods map In] in H; repeat (destruct H as [<- |H]; [first [discriminate|cbn; repeat constructor; lia]|]); destruct H.
  - intros w Hw E. assert (forallb (fun m => forallb (fun w => negb (str_eqb (lower m) (lit w))) lit_words) methods = true) as Hall by reflexivity.
    rewrite forallb_forall in Hall. specialize (Hall m H). rewrite forallb_forall in Hall. specialize (Hall w Hw). rewrite E, str_eqb_refl in Hall. discriminate.
  - assert (forallb (fun m => negb (str_eqb m (lit "X")) && negb (str_eqb m (lit "not")) && negb (str_eqb m (lit "isof")) && negb (str_eqb m (lit "cast"))) methods = true) as Hall by reflexivity.
    rewrite forallb_forall in Hall. specialize (Hall m H).
    repeat split; try (intros ->; rewrite str_eqb_refl in Hall; cbn in Hall; discriminate).
    apply existsb_exists. exists m. split; [exact H|apply str_eqb_refl].
Qed.
Lemma means_starts n e s : means n e s -> starts s.
Proof.
  induction 1 as [v s H|n H Hr|m l w t Hm Hw Ha|o k w1 w2 w3 w4 w5 e s v t Hk|o k w1 w2 w3 v t Hk|e s w1 w2 He IH Hu Hw1 Hw2
    |a b s t w1 w2 Ha IHa Hb IHb Hw1 Hw2|e s w He IH Hw|e s w He IH Hw Hn|o n k a b s t w1 w2 Ho Ha IHa Hb IHb Hw1 Hw2|n e s H2 H IH]; try reflexivity.
  - eapply literal_starts; eassumption.
  - apply ident_starts. assumption.
  - destruct (methods_spec m Hm) as (Hi & _). apply ident_starts in Hi. destruct m; [destruct Hi|exact Hi].
  - destruct Hk as [Hk|[Hk|[]]]; inversion Hk; reflexivity.
  - destruct Hk as [Hk|[Hk|[]]]; inversion Hk; reflexivity.
  - destruct s; [destruct IHa|exact IHa].
  - destruct s; [destruct IHa|exact IHa].
  - exact IH.
Qed.
Definition stop_mark c r : In c [32; 9; 47; 41; 44] -> stop (c :: r).
Proof. intros H. exact H. Qed.

(** One step of the loop, on a literal *)
Lemma loop_literal f left stk v s rest w : literal v s -> stop rest -> spaces w ->
  loop (S f) left stk (w ++ s ++ rest) = after (loop f) left stk (ELit v) rest.
Proof.
  intros H Hr Hw. rewrite loop_S. cbv zeta. rewrite (wsp_starts w s rest Hw (literal_starts _ _ H)).
  rewrite (literal_read number quoted start id Hcl v s rest H Hr). reflexivity.
Qed.
(** Inside brackets *)
Lemma reads_inner e s c rest w1 w2 : reads 2 e s -> In c [41; 44] -> spaces w1 -> spaces w2 ->
  exists g, loop g None [] (w1 ++ s ++ w2 ++ c :: rest) = Ok (Some e, c :: rest).
Proof.
  intros H Hc Hw1 Hw2.
  assert (wsp (w2 ++ c :: rest) = c :: rest) as Hws.
  { rewrite wsp_spaces by exact Hw2. apply wsp_id. destruct Hc as [<- |[<- |[]]]; reflexivity. }
  apply (H None [] (w2 ++ c :: rest) O (Some e, c :: rest)); auto.
  - reflexivity.
  - split; [apply stop_spaces; [exact Hw2|]; cbn in *; intuition|]. rewrite Hws. intros ->. cbn in Hc. lia.
  - intros o s'. rewrite Hws, next_none by exact Hc. discriminate.
  - unfold OdExpr.after. rewrite Hws, next_none by exact Hc. reflexivity.
Qed.
Lemma loop_up f g l st s r : (f <= g)%nat -> loop f l st s = Ok r -> loop g l st s = Ok r.
Proof. intros H. apply le_res_ok. apply loop_mono. exact H. Qed.
Lemma after_up f g l st e s r : (f <= g)%nat -> after (loop f) l st e s = Ok r -> after (loop g) l st e s = Ok r.
Proof. intros H. apply after_mono. exact H. Qed.
Lemma not40 {A} c t (f : str -> A) (g : A) : c <> 40 -> match c :: t with 40 :: s2 => f s2 | _ => g end = g.
Proof. intros H. destruct c as [|p|p]; try reflexivity. do 6 (destruct p as [p|p|]; try reflexivity). contradiction. Qed.
Lemma wsp_wsp rest : wsp (wsp rest) = wsp rest.
Proof. induction rest as [|c r IH]; [reflexivity|]. cbn [wsp]. destruct (is_wsp c) eqn:E; [exact IH|]. cbn [wsp]. rewrite E. reflexivity. Qed.
Lemma after_wsp (L : option (expr X) -> list (expr X) -> str -> result (option (expr X) * str)) l st e rest : after L l st e (wsp rest) = after L l st e rest.
Proof. unfold OdExpr.after. rewrite wsp_wsp. reflexivity. Qed.
Lemma loop_wsp f l st s : loop f l st (wsp s) = loop f l st s.
Proof. destruct f as [|f]; [reflexivity|]. rewrite !loop_S. cbv zeta. rewrite wsp_wsp. reflexivity. Qed.
Lemma id_end_spaces w rest : spaces w -> id_end id rest -> id_end id (w ++ rest).
Proof.
  intros H Hr. destruct H as [|c w Hc H]; [exact Hr|]. cbn [app id_end]. split; [apply (cl_marks _ _ Hcl)|]; destruct Hc as [-> | ->]; cbn; auto 12; discriminate.
Qed.
Lemma bracket_end rest : id_end id (40 :: rest).
Proof. split; [apply (cl_marks _ _ Hcl); cbn; auto 12|discriminate]. Qed.
Lemma spaces1_end w rest : spaces1 w -> id_end id (w ++ rest).
Proof. intros H. apply (stop_id_end _ _ Hcl), stop_spaces1, H. Qed.
Lemma has_wsp_spaces1 w rest : spaces1 w -> has_wsp (w ++ rest) = true.
Proof. intros [H Hn]. destruct H as [|c w Hc H]; [contradiction|]. destruct Hc as [-> | ->]; reflexivity. Qed.
Lemma follows_spaces1 w c t : spaces1 w -> is_wsp c = false -> c <> 40 -> follows (w ++ c :: t).
Proof.
  intros H Hc H40. split; [apply stop_spaces1, H|]. destruct H as [H _]. rewrite wsp_spaces, wsp_id by assumption. exact H40.
Qed.

Lemma read_prop n : identifier start id n -> ~ reserved n -> reads 10 (EProp n) n.
Proof.
  intros H Hres left stk rest f r Hl [Hs Hf] Hn HA w Hw. exists (S f). rewrite loop_S. cbv zeta.
  destruct (not_reserved n Hres) as (Hw' & HX & Hnot & Hisof & Hcast).
  pose proof (stop_id_end _ _ Hcl rest Hs) as Hi.
  rewrite (wsp_starts w n rest Hw (ident_starts _ H)), (uri_ident_none n rest H Hi Hw' HX). cbn [bind].
  rewrite (ident_app _ _ Hcl n rest H Hi), (str_eqb_ne _ _ Hnot), (str_eqb_ne _ _ Hisof), (str_eqb_ne _ _ Hcast). cbn [orb].
  rewrite <- after_wsp in HA. destruct (wsp rest) as [|c t]; [exact HA|].
  clear -Hf HA. destruct c as [|q|q]; try exact HA. do 6 (destruct q as [q|q|]; try exact HA). contradiction.
Qed.
Lemma read_call m l w t : In m methods -> spaces w ->
  (forall rest, exists g, args_loop g (loop g None []) (t ++ 41 :: rest) = Ok (l, rest)) ->
  reads 10 (ECall m l) (m ++ w ++ 40 :: t ++ [41]).
Proof.
  intros Hm Hw IH left stk rest f r Hl Hf Hn HA w0 Hw0. destruct (IH rest) as (g & Hg).
  destruct (methods_spec m Hm) as (Hi & Hw' & HX & Hnot & Hisof & Hcast & Hex).
  exists (S (f + g)). rewrite loop_S. cbv zeta. rewrite <- !app_assoc. cbn [app]. rewrite <- app_assoc. cbn [app].
  pose proof (id_end_spaces w (40 :: t ++ 41 :: rest) Hw (bracket_end _)) as Hend.
  rewrite (wsp_starts w0 m _ Hw0 (ident_starts _ Hi)), (uri_ident_none m _ Hi Hend Hw' HX). cbn [bind].
  rewrite (ident_app _ _ Hcl m _ Hi Hend), (str_eqb_ne _ _ Hnot), (str_eqb_ne _ _ Hisof), (str_eqb_ne _ _ Hcast). cbn [orb].
  rewrite (wsp_spaces w _ Hw), (wsp_id 40) by reflexivity. rewrite Hex.
  rewrite (args_mono number quoted start id g (f + g) g _ _ ltac:(lia) Hg (f + g) ltac:(lia)). cbn [bind].
  apply (after_up f); [lia|exact HA].
Qed.
Lemma cast_word o k rest : In (o, k) [(OCast, lit "cast"); (OIsof, lit "isof")] -> id_end id rest ->
  starts k /\ URI (k ++ rest) = Ok None /\ ParseSimpleIdentifier start id (k ++ rest) = Some (k, rest) /\
  str_eqb k (lit "not") = false /\ str_eqb k (lit "isof") || str_eqb k (lit "cast") = true /\
  (if str_eqb k (lit "isof") then OIsof else OCast) = o.
Proof.
  intros H Hr.
  assert (identifier start id k /\ (forall w, In w lit_words -> lower k <> lit w) /\ k <> lit "X") as (Hi & Hw & HX).
  { destruct H as [H|[H|[]]]; inversion H; subst; (split; [apply ident_letters; [exact Hcl|cbn; repeat constructor; lia|discriminate]|split; [|discriminate]]);
      intros w Hw; cbn [lit_words In] in Hw; repeat (destruct Hw as [<- |Hw]; [discriminate|]); destruct Hw. }
  repeat split.
  - apply ident_starts, Hi.
  - apply uri_ident_none; assumption.
  - apply (ident_app _ _ Hcl); assumption.
  - destruct H as [H|[H|[]]]; inversion H; reflexivity.
  - destruct H as [H|[H|[]]]; inversion H; reflexivity.
  - destruct H as [H|[H|[]]]; inversion H; reflexivity.
Qed.
Lemma read_string v t : in_quotes v t -> reads 2 (ELit (mkV (Some TString) (Some (PStr v)))) (39 :: t ++ [39]).
Proof.
  intros H left stk rest f r Hl [Hs _] Hn HA w Hw. exists (S f).
  rewrite (loop_literal f left stk _ _ rest w (LString number quoted v t H) Hs Hw). exact HA.
Qed.
Lemma read_cast o k w1 w2 w3 w4 w5 e s v t : In (o, k) [(OCast, lit "cast"); (OIsof, lit "isof")] ->
  spaces w1 -> spaces w2 -> spaces w3 -> spaces w4 -> spaces w5 -> reads 2 e s -> in_quotes v t ->
  reads 10 (EOp false o [Some e; Some (ELit (mkV (Some TString) (Some (PStr v))))])
      (k ++ w1 ++ 40 :: w2 ++ s ++ w3 ++ 44 :: w4 ++ 39 :: t ++ 39 :: w5 ++ [41]).
Proof.
  intros Hk Hw1 Hw2 Hw3 Hw4 Hw5 He Hq left stk rest f r Hl Hf Hn HA w Hw.
  set (tail := w4 ++ (39 :: t ++ [39]) ++ w5 ++ 41 :: rest).
  destruct (reads_inner e s 44 tail w2 w3 He ltac:(cbn; auto) Hw2 Hw3) as (g1 & Hg1).
  destruct (reads_inner _ _ 41 rest w4 w5 (read_string v t Hq) ltac:(cbn; auto) Hw4 Hw5) as (g2 & Hg2). fold tail in Hg2.
  assert ((k ++ w1 ++ 40 :: w2 ++ s ++ w3 ++ 44 :: w4 ++ 39 :: t ++ 39 :: w5 ++ [41]) ++ rest
          = k ++ w1 ++ 40 :: w2 ++ s ++ w3 ++ 44 :: tail) as ->.
  { subst tail. repeat (rewrite <- !app_assoc; cbn [app]). reflexivity. }
  pose proof (id_end_spaces w1 (40 :: w2 ++ s ++ w3 ++ 44 :: tail) Hw1 (bracket_end _)) as Hend.
  destruct (cast_word o k _ Hk Hend) as (Hst & Hu & Hid & H1 & H2 & H3).
  exists (S (f + g1 + g2)). rewrite loop_S. cbv zeta.
  rewrite (wsp_starts w k _ Hw Hst), Hu. cbn [bind]. rewrite Hid, H1, H2, H3. clear Hu Hid H1 H2 H3.
  rewrite (wsp_spaces w1 _ Hw1), (wsp_id 40) by reflexivity.
  unfold cast_like. rewrite (wsp_id 40) by reflexivity.
  rewrite (loop_up g1 (f + g1 + g2) _ _ _ _ ltac:(lia) Hg1). cbn [bind]. rewrite (wsp_id 44) by reflexivity. cbv zeta.
  assert (loop (f + g1 + g2) None [] (wsp tail) = Ok (Some (ELit (mkV (Some TString) (Some (PStr v)))), 41 :: rest)) as ->.
  { apply (loop_up g2); [lia|]. rewrite loop_wsp. exact Hg2. }
  cbn [bind]. rewrite (wsp_id 41) by reflexivity. cbn [is_string_literal v_type bind].
  apply (after_up f); [lia|exact HA].
Qed.
Lemma read_cast1 o k w1 w2 w3 v t : In (o, k) [(OCast, lit "cast"); (OIsof, lit "isof")] ->
  spaces w1 -> spaces w2 -> spaces w3 -> in_quotes v t ->
  reads 10 (EOp false o [Some (ELit (mkV (Some TString) (Some (PStr v))))])
      (k ++ w1 ++ 40 :: w2 ++ 39 :: t ++ 39 :: w3 ++ [41]).
Proof.
  intros Hk Hw1 Hw2 Hw3 Hq left stk rest f r Hl Hf Hn HA w Hw.
  destruct (reads_inner _ _ 41 rest w2 w3 (read_string v t Hq) ltac:(cbn; auto) Hw2 Hw3) as (g2 & Hg2).
  assert ((k ++ w1 ++ 40 :: w2 ++ 39 :: t ++ 39 :: w3 ++ [41]) ++ rest
          = k ++ w1 ++ 40 :: w2 ++ (39 :: t ++ [39]) ++ w3 ++ 41 :: rest) as ->.
  { repeat (rewrite <- !app_assoc; cbn [app]). reflexivity. }
  pose proof (id_end_spaces w1 (40 :: w2 ++ (39 :: t ++ [39]) ++ w3 ++ 41 :: rest) Hw1 (bracket_end _)) as Hend.
  destruct (cast_word o k _ Hk Hend) as (Hst & Hu & Hid & H1 & H2 & H3).
  exists (S (f + g2)). rewrite loop_S. cbv zeta.
  rewrite (wsp_starts w k _ Hw Hst), Hu. cbn [bind]. rewrite Hid, H1, H2, H3. clear Hu Hid H1 H2 H3.
  rewrite (wsp_spaces w1 _ Hw1), (wsp_id 40) by reflexivity.
  unfold cast_like. rewrite (wsp_id 40) by reflexivity.
  rewrite (loop_up g2 (f + g2) _ _ _ _ ltac:(lia) Hg2). cbn [bind]. rewrite (wsp_id 41) by reflexivity.
  cbn [is_string_literal v_type bind]. apply (after_up f); [lia|exact HA].
Qed.
Lemma read_paren e s w1 w2 : reads 2 e s -> is_unary e = false -> spaces w1 -> spaces w2 ->
  reads 10 e (40 :: w1 ++ s ++ w2 ++ [41]).
Proof.
  intros He Hu Hw1 Hw2 left stk rest f r Hl Hf Hn HA w Hw.
  destruct (reads_inner e s 41 rest w1 w2 He ltac:(cbn; auto) Hw1 Hw2) as (g & Hg).
  exists (S (f + g)). rewrite loop_S. cbv zeta.
  rewrite (wsp_starts w (40 :: w1 ++ s ++ w2 ++ [41]) rest Hw eq_refl). cbn [app]. rewrite <- !app_assoc. cbn [app].
  assert (start 40 = false) as H40 by (apply (start_mark _ _ Hcl); cbn; auto 12).
  unfold ParseURILiteral. rewrite !(ident_none start id (40 :: _) H40). cbn [Z.eqb Pos.eqb orb is_digit Z.leb Z.compare Pos.compare Pos.compare_cont andb bind].
  rewrite (loop_up g (f + g) _ _ _ _ ltac:(lia) Hg). cbn [bind]. rewrite Hu. apply (after_up f); [lia|exact HA].
Qed.
Lemma AddOperand_op u o l x : AddOperand (X:=X) (EOp u o l) x = EOp u o (l ++ [x]).
Proof. reflexivity. Qed.
(** Two operands around an operator read by [next_op] *)
Lemma read_binary n o k w2 a b s t w1 : reads n a s -> reads (n + 1) b t -> category o = n ->
  spaces w1 -> spaces w2 -> follows (w1 ++ k ++ w2 ++ t) -> starts k ->
  (forall rest, next_op start id (k ++ w2 ++ t ++ rest) = Some (o, w2 ++ t ++ rest)) -> (forall rest, follows (w1 ++ k ++ w2 ++ t ++ rest)) ->
  reads n (EOp false o [Some a; Some b]) (s ++ w1 ++ k ++ w2 ++ t).
Proof.
  intros Ha Hb Hc Hw1 Hw2 _ Hk Hnext Hfol left stk rest f r Hl Hf Hn HA w Hw.
  set (p := EOp false o [Some a]) in *.
  assert (cat p = n) as Hp by exact Hc.
  pose proof (after_bound (loop f) n left stk p b rest Hl Hp Hn) as HB.
  unfold p in HB at 2. rewrite AddOperand_op in HB. cbn [app] in HB. rewrite HA in HB.
  destruct (Hb (Some p) (match left with Some l => l :: stk | None => stk end) rest f r) with (w := w2) as (g & Hg); auto.
  { cbn [left_ok]. lia. }
  { intros o' s' E. specialize (Hn o' s' E). lia. }
  assert (wsp (w1 ++ k ++ w2 ++ t ++ rest) = k ++ w2 ++ t ++ rest) as Hws.
  { rewrite wsp_spaces by exact Hw1. destruct k as [|c k]; [destruct Hk|]. apply wsp_id. exact Hk. }
  destruct (Ha left stk (w1 ++ k ++ w2 ++ t ++ rest) g r) with (w := w) as (h & Hh); auto.
  { intros o' s' E. rewrite Hws, Hnext in E. inversion E; subst. lia. }
  { unfold OdExpr.after. rewrite Hws, Hnext.
    rewrite (bind_push n left stk (Some a) (EOp false o []) Hl Hc). rewrite AddOperand_op. cbn [app]. exact Hg. }
  exists h. rewrite <- !app_assoc. exact Hh.
Qed.
Lemma read_unary o e s u w1 : reads 9 e s -> category o = 8 -> spaces w1 ->
  (forall f left stk rest w, spaces w -> follows rest ->
     loop (S f) left stk (w ++ u ++ rest) = push (loop f) left stk (EOp true o []) (w1 ++ s ++ rest)) ->
  reads 8 (EOp true o [Some e]) u.
Proof.
  intros He Hc Hw1 Hstep left stk rest f r Hl Hf Hn HA w Hw.
  set (p := EOp true o []) in *. assert (cat p = 8) as Hp by exact Hc.
  pose proof (after_bound (loop f) 8 left stk p e rest Hl Hp Hn) as HB. unfold p in HB at 2. rewrite AddOperand_op in HB. cbn [app] in HB. rewrite HA in HB.
  destruct (He (Some p) (match left with Some l => l :: stk | None => stk end) rest f r) with (w := w1) as (g & Hg); auto.
  { cbn [left_ok]. lia. }
  { intros o' s' E. specialize (Hn o' s' E). lia. }
  exists (S g). rewrite Hstep by assumption. unfold push. rewrite (bind_push 8 left stk None p Hl Hp). exact Hg.
Qed.

Theorem means_reads : (forall n e s, means n e s -> reads n e s) /\
  (forall l t, arguments l t -> forall rest, exists g, args_loop g (loop g None []) (t ++ 41 :: rest) = Ok (l, rest)).
Proof.
  apply means_arguments_ind.
  - (* literal *)
    intros v s H left stk rest f r Hl [Hs _] Hn HA w Hw. exists (S f). rewrite (loop_literal f left stk v s rest w H Hs Hw). exact HA.
  - intros. apply read_prop; assumption.
  - intros. apply read_call; assumption.
  - intros. apply read_cast; assumption.
  - intros. apply read_cast1; assumption.
  - intros. apply read_paren; assumption.
  - (* member *)
    intros a b s t w1 w2 Ma Ha Mb Hb Hw1 Hw2. apply (read_binary 9 OMember [47] w2); auto; try reflexivity.
    + split; [apply stop_spaces; [exact Hw1|cbn; auto]|]. rewrite wsp_spaces by exact Hw1. discriminate.
    + split; [apply stop_spaces; [exact Hw1|cbn; auto]|]. rewrite wsp_spaces by exact Hw1. discriminate.
  - (* not *)
    intros e s w Me He Hw. apply (read_unary ONot e s _ []); auto; try reflexivity; [constructor|].
    intros f left stk rest w0 Hw0 Hf. rewrite loop_S. cbv zeta. rewrite (wsp_starts w0 (lit "not" ++ w ++ s) rest Hw0 eq_refl).
    rewrite <- !app_assoc. pose proof (spaces1_end w (s ++ rest) Hw) as Hend.
    assert (identifier start id (lit "not")) as Hi by (apply ident_letters; [exact Hcl|cbn; repeat constructor; lia|discriminate]).
    rewrite (uri_ident_none (lit "not") _ Hi Hend); [|intros x Hx; cbn [lit_words In] in Hx; repeat (destruct Hx as [<- |Hx]; [discriminate|]); destruct Hx|discriminate].
    cbn [bind]. rewrite (ident_app _ _ Hcl _ _ Hi Hend). rewrite str_eqb_refl, (has_wsp_spaces1 w _ Hw).
    f_equal. rewrite wsp_spaces by apply Hw. pose proof (means_starts _ _ _ Me) as Hst. destruct s as [|c s]; [destruct Hst|]. apply wsp_id. exact Hst.
  - (* minus *)
    intros e s w Me He Hw Hn. apply (read_unary ONegate e s _ w); auto; try reflexivity.
    intros f left stk rest w0 Hw0 Hf. rewrite loop_S. cbv zeta. rewrite (wsp_starts w0 (45 :: w ++ s) rest Hw0 eq_refl). cbn [app].
    rewrite (uri_minus (w ++ s) rest Hn (proj1 Hf)). cbn [bind].
    rewrite ident_none by (apply (start_mark _ _ Hcl); cbn; auto 12). rewrite <- app_assoc. reflexivity.
  - (* binary *)
    intros o n k a b s t w1 w2 Ho Ma Ha Mb Hb Hw1 Hw2.
    assert (forall rest, next_op start id (k ++ w2 ++ t ++ rest) = Some (o, w2 ++ t ++ rest)) as Hnext.
    { intros rest. apply (next_named o n k (w2 ++ t ++ rest) Ho). apply spaces1_end, Hw2. }
    destruct (next_named o n k [] Ho I) as (_ & Hc & _ & (c & k' & Ek & Hk)).
    assert (c <> 40) as H40.
    { intros ->. specialize (Hnext []). rewrite Ek in Hnext. cbn [app] in Hnext. unfold next_op in Hnext.
      rewrite ident_none in Hnext by (apply (start_mark _ _ Hcl); cbn; auto 12). discriminate. }
    apply (read_binary n o k w2); auto; try apply Hw1; try apply Hw2; subst k; try exact Hk; intros; apply follows_spaces1; auto.
  - (* weaken *)
    intros n e s H2 M IH left stk rest f r Hl Hf Hn HA w Hw. apply (IH left stk rest f r); auto.
    + destruct left as [l|]; cbn [left_ok] in *; [lia|exact Hl].
    + intros o s' E. specialize (Hn o s' E). lia.
  - (* one argument *)
    intros e s w1 w2 M IH Hw1 Hw2 rest. destruct (reads_inner e s 41 rest w1 w2 IH ltac:(cbn; auto) Hw1 Hw2) as (g & Hg).
    exists (S g). cbn [args_loop]. rewrite <- !app_assoc, loop_wsp, (loop_up g (S g) _ _ _ _ ltac:(lia) Hg). cbn [bind].
    rewrite (wsp_id 41) by reflexivity. reflexivity.
  - (* more arguments *)
    intros e s w1 w2 l t M IH Hw1 Hw2 MA IHA rest. destruct (IHA rest) as (h & Hh).
    destruct (reads_inner e s 44 (t ++ 41 :: rest) w1 w2 IH ltac:(cbn; auto) Hw1 Hw2) as (g & Hg).
    exists (S (g + h)). cbn [args_loop]. repeat (rewrite <- !app_assoc; cbn [app]). rewrite loop_wsp, (loop_up g (S (g + h)) _ _ _ _ ltac:(lia) Hg). cbn [bind].
    rewrite (wsp_id 44) by reflexivity. 
    rewrite (args_mono number quoted start id h (g + h) h _ _ ltac:(lia) Hh (S (g + h)) ltac:(lia)). reflexivity.
Qed.
End Read.
