(** Proofs about the texts of expressions: literals. *)
From Coq Require Import Lia ZArith List Bool.
From Verif Require Import Py Iso Dec Shapes XmlChars OdExpr OdExprSpec OdExprProofs.
Import ListNotations.
Open Scope Z_scope.
Open Scope list_scope.

Ltac zdig c := destruct c as [|?p|?p]; try reflexivity; do 7 (match goal with q : positive |- _ => destruct q as [q|q|]; try reflexivity end).

Lemma digit_true c : 48 <= c <= 57 -> is_digit c = true.
Proof. unfold is_digit. lia. Qed.
Lemma digits_run s : digits s -> Forall (fun c => is_digit c = true) s.
Proof. intros H. eapply Forall_impl; [|exact H]. cbn. intros c. apply digit_true. Qed.
Lemma digits_is_dec s : digits s -> Forall is_dec s.
Proof. intros H. exact H. Qed.

(** ** Numbers *)
Definition num_end (rest : str) : Prop :=
  match rest with [] => True | c :: _ => is_digit c = false /\ c <> 46 /\ c <> 101 /\ c <> 69 end.
Lemma no_word3 w c t : lowercase (lit w) = true -> (exists a b, lit w = a :: b) -> ~ (97 <= c <= 122) -> ~ (65 <= c <= 90) ->
  skip_insensitive (lit w) (c :: t) = None.
Proof.
  intros Hw (a & b & E) H1 H2. rewrite E in *. unfold skip_insensitive. cbn [length firstn].
  destruct (str_eqb _ _) eqn:Eq; [|reflexivity]. apply str_eqb_eq in Eq. unfold lower in Eq. cbn [map] in Eq.
  inversion Eq as [[Ha Hb]]. cbn [lowercase forallb] in Hw. unfold lower1 in Ha.
  destruct ((c >=? 65) && (c <=? 90)) eqn:E2; [lia|]. unfold lowercase in Hw. cbn [forallb] in Hw. lia.
Qed.
Lemma no_inf_nan c t : ~ (97 <= c <= 122) -> ~ (65 <= c <= 90) ->
  skip_insensitive (lit "inf") (c :: t) = None /\ skip_insensitive (lit "nan") (c :: t) = None.
Proof. intros H1 H2. split; apply no_word3; auto; cbn; eauto. Qed.

Definition after_sign (sign s1 : str) : option (numeric * str) :=
  match skip_insensitive (lit "inf") s1 with
  | Some s2 => Some (mkNum sign (lit "inf") None [] None, s2)
  | None =>
      match skip_insensitive (lit "nan") s1 with
      | Some s2 => Some (mkNum sign (lit "nan") None [] None, s2)
      | None =>
          let '(l, s2) := run is_digit s1 in
          let '(r, s3) := match s2 with 46 :: s3 => let '(r, s4) := run is_digit s3 in (Some r, s4) | _ => (None, s2) end in
          match l, r with
          | [], None | [], Some [] => None
          | _, _ =>
              match s3 with
              | e :: s4 =>
                  if (e =? 101) || (e =? 69) then
                    let '(es, s5) := match s4 with 45 :: s5 => ([45], s5) | _ => ([43], s4) end in
                    let '(d, s6) := run is_digit s5 in
                    Some (mkNum sign l r es (Some d), s6)
                  else Some (mkNum sign l r [] None, s3)
              | [] => Some (mkNum sign l r [] None, s3)
              end
          end
      end
  end.
Lemma numeric_sign s : ParseNumericLiteral s =
  match s with 45 :: s1 => after_sign [45] s1 | _ => after_sign [] s end.
Proof. unfold ParseNumericLiteral, after_sign. destruct s as [|c s]; [reflexivity|]. zdig c. Qed.

Lemma not45 {A} c t (f : str -> A) (g : A) : c <> 45 -> match c :: t with 45 :: s5 => f s5 | _ => g end = g.
Proof. intros H. destruct c as [|p|p]; try reflexivity. do 6 (destruct p as [p|p|]; try reflexivity). contradiction. Qed.
Lemma not46 {A} c t (f : str -> A) (g : A) : c <> 46 -> match c :: t with 46 :: s5 => f s5 | _ => g end = g.
Proof. intros H. destruct c as [|p|p]; try reflexivity. do 6 (destruct p as [p|p|]; try reflexivity). contradiction. Qed.
Lemma exponent sg l r es ex te rest :
  (ex = None /\ es = [] /\ te = [] \/
     exists d, ex = Some d /\ digits d /\ d <> [] /\ (es = [45] /\ (te = 101 :: 45 :: d \/ te = 69 :: 45 :: d) \/
                                           es = [43] /\ (te = 101 :: d \/ te = 69 :: d))) ->
  num_end rest ->
  match te ++ rest with
  | e :: s4 =>
      if (e =? 101) || (e =? 69) then
        let '(es, s5) := match s4 with 45 :: s5 => ([45], s5) | _ => ([43], s4) end in
        let '(d, s6) := run is_digit s5 in
        Some (mkNum sg l r es (Some d), s6)
      else Some (mkNum sg l r [] None, te ++ rest)
  | [] => Some (mkNum sg l r [] None, te ++ rest)
  end = Some (mkNum sg l r es ex, rest).
Proof.
  intros H Hr. destruct H as [(-> & -> & ->)|(d & -> & Hd & Hne & H)].
  - cbn [app]. destruct rest as [|c t]; [reflexivity|]. destruct Hr as (_ & _ & H1 & H2).
    destruct ((c =? 101) || (c =? 69)) eqn:E; [lia|reflexivity].
  - assert (run is_digit (d ++ rest) = (d, rest)) as Hrun.
    { apply run_app; [exact (digits_run _ Hd)|]. destruct rest; [trivial|apply Hr]. }
    assert ((match d ++ rest with 45 :: s5 => ([45], s5) | _ => ([43], d ++ rest) end) = ([43], d ++ rest)) as Hm.
    { destruct Hd as [|c d Hc Hd]; [contradiction|]. cbn [app]. apply not45. lia. }
    destruct H as [(-> & [-> | ->])|(-> & [-> | ->])]; cbn [app Z.eqb orb Pos.eqb]; rewrite ?Hm, ?Hrun; reflexivity.
Qed.
Lemma after_sign_app sg l r es ex tr te rest : digits l ->
  (r = None /\ tr = [] \/ exists d, r = Some d /\ digits d /\ tr = 46 :: d) ->
  (l <> [] \/ exists c d, r = Some (c :: d)) ->
  (ex = None /\ es = [] /\ te = [] \/
     exists d, ex = Some d /\ digits d /\ d <> [] /\ (es = [45] /\ (te = 101 :: 45 :: d \/ te = 69 :: 45 :: d) \/
                                           es = [43] /\ (te = 101 :: d \/ te = 69 :: d))) ->
  num_end rest ->
  after_sign sg (l ++ tr ++ te ++ rest) = Some (mkNum sg l r es ex, rest).
Proof.
  intros Hl Hr Hlr He Hrest. unfold after_sign.
  assert (exists c t, l ++ tr ++ te ++ rest = c :: t /\ (48 <= c <= 57 \/ c = 46)) as (c & t & E & Hc).
  { destruct Hl as [|c l Hc Hl]; [|cbn [app]; eauto].
    destruct Hlr as [Hlr|(c & d & ->)]; [contradiction|]. destruct Hr as [[Hr _]|(d' & _ & _ & ->)]; [discriminate|]. cbn [app]. eauto 6. }
  assert (skip_insensitive (lit "inf") (l ++ tr ++ te ++ rest) = None /\ skip_insensitive (lit "nan") (l ++ tr ++ te ++ rest) = None) as [-> ->].
  { rewrite E. apply no_inf_nan; lia. }
  assert (match te ++ rest with [] => True | c :: _ => is_digit c = false end /\ match te ++ rest with [] => True | c :: _ => c <> 46 end) as [Hte1 Hte2].
  { destruct He as [(_ & _ & ->)|(d & _ & _ & _ & [(_ & [-> | ->])|(_ & [-> | ->])])]; cbn [app]; try (split; [reflexivity|lia]).
    destruct rest; [split; trivial|]. split; apply Hrest. }
  rewrite (run_app is_digit l); [|exact (digits_run _ Hl)|].
  2:{ destruct Hr as [(_ & ->)|(d & _ & _ & ->)]; [cbn [app]; exact Hte1|reflexivity]. }
  assert (match tr ++ te ++ rest with 46 :: s3 => let '(r, s4) := run is_digit s3 in (Some r, s4) | _ => (None, tr ++ te ++ rest) end = (r, te ++ rest)) as Hm.
  { destruct Hr as [(-> & ->)|(d & -> & Hd & ->)].
    - cbn [app]. destruct (te ++ rest) as [|a b]; [reflexivity|].
      apply (not46 a b (fun s3 => let '(r, s4) := run is_digit s3 in (Some r, s4))). exact Hte2.
    - cbn [app]. rewrite (run_app is_digit d); [reflexivity|exact (digits_run _ Hd)|exact Hte1]. }
  rewrite Hm. rewrite <- (exponent sg l r es ex te rest He Hrest).
  destruct l as [|a l]; [|reflexivity]. destruct Hlr as [Hlr|(a & d & ->)]; [contradiction|reflexivity].
Qed.
Lemma decimal_app n s rest : decimal_text n s -> num_end rest -> ParseNumericLiteral (s ++ rest) = Some (n, rest).
Proof.
  intros H Hr. destruct H as [sg l r es ex tr te Hsg Hl Hr1 Hlr He]. rewrite numeric_sign.
  pose proof (after_sign_app sg l r es ex tr te rest Hl Hr1 Hlr He Hr) as HA.
  rewrite <- !app_assoc. destruct Hsg as [<- |[<- |[]]]; [|exact HA].
  cbn [app]. 
  assert (exists c t, l ++ tr ++ te ++ rest = c :: t /\ c <> 45) as (c & t & E & Hc).
  { destruct Hl as [|c l Hc Hl]; [|cbn [app]; do 2 eexists; split; [reflexivity|lia]].
    destruct Hlr as [Hlr|(c & d & ->)]; [contradiction|]. destruct Hr1 as [[Hx _]|(d' & _ & _ & ->)]; [discriminate|].
    cbn [app]. do 2 eexists. split; [reflexivity|lia]. }
  rewrite E in *. rewrite not45 by exact Hc. exact HA.
Qed.
Lemma integer_decimal n m s : integer n m s ->
  exists sg d, decimal_text (mkNum sg d None [] None) s /\ digits d /\ d <> [] /\ (length d <= m)%nat /\
    n = (match sg with [] => dval d | _ => - dval d end).
Proof.
  intros (d & Hd & Hn & Hl & H).
  assert (decimal_text (mkNum [] d None [] None) ([] ++ d ++ [] ++ [])) as H1.
  { constructor; auto. cbn; auto. }
  assert (decimal_text (mkNum [45] d None [] None) ([45] ++ d ++ [] ++ [])) as H2.
  { constructor; auto. cbn; auto. }
  cbn [app] in H1, H2. rewrite app_nil_r in *.
  destruct H as [(-> & ->)|(-> & ->)]; eauto 12.
Qed.
Lemma int_literal_ok m lo hi sg d n : digits d -> d <> [] -> (length d <= m)%nat ->
  n = (match sg with [] => dval d | _ => - dval d end) -> lo <= n <= hi ->
  int_literal m lo hi (mkNum sg d None [] None) = Ok n.
Proof.
  intros Hd Hn Hl -> Hr. unfold int_literal. cbn [n_left n_right n_exp n_sign]. destruct d as [|c d]; [contradiction|].
  destruct (m <? length (c :: d))%nat eqn:E; [apply Nat.ltb_lt in E; lia|].
  assert (forallb is_digit (c :: d) = true) as ->.
  { apply forallb_forall. apply Forall_forall. exact (digits_run _ Hd). }
  cbn [negb]. destruct sg; cbv zeta; (destruct (_ || _) eqn:E2; [lia|reflexivity]).
Qed.
Lemma int_literal_err m lo hi n e : int_literal m lo hi n = Err e -> e = ValueError.
Proof.
  unfold int_literal. destruct (n_left n); [congruence|]. destruct (_ <? _)%nat; [congruence|]. destruct (negb _); [congruence|].
  destruct (n_right n); [congruence|]. destruct (n_exp n); [congruence|]. cbv zeta. destruct (_ || _); congruence.
Qed.
Lemma decimal_head n s rest : decimal_text n s -> exists c t, s ++ rest = c :: t /\ (c = 45 \/ c = 46 \/ 48 <= c <= 57).
Proof.
  intros H. destruct H as [sg l r es ex tr te Hsg Hl Hr1 Hlr He]. destruct Hsg as [<- |[<- |[]]]; cbn [app]; [|eauto 8].
  destruct Hl as [|c l Hc Hl]; [|cbn [app]; do 2 eexists; split; [reflexivity|lia]].
  destruct Hlr as [Hlr|(c & d & ->)]; [contradiction|]. destruct Hr1 as [[Hx _]|(d' & _ & _ & ->)]; [discriminate|].
  cbn [app]. do 2 eexists. split; [reflexivity|lia].
Qed.

(** ** Strings and bytes *)
Lemma in_quotes_string v t rest : in_quotes v t -> stop rest -> string_literal (t ++ 39 :: rest) = Ok (v, rest).
Proof.
  intros H Hr. induction H as [|v t H IH|c v t Hc H IH].
  - cbn [app string_literal]. destruct rest as [|c r]; [reflexivity|].
    cbn [stop In] in Hr. destruct Hr as [<- |[<- |[<- |[<- |[<- |[]]]]]]; reflexivity.
  - cbn [app string_literal]. rewrite IH. reflexivity.
  - cbn [app].
    transitivity ('(v, r) <- string_literal (t ++ 39 :: rest) ;; Ok (c :: v, r)); [|rewrite IH; reflexivity].
    clear IH H. destruct c as [|p|p]; try reflexivity. do 6 (destruct p as [p|p|]; try reflexivity). contradiction.
Qed.
Lemma hex_digit_ok v c : hex_digit v c -> is_hex c = true /\ hex_val c = v.
Proof.
  unfold hex_digit, is_hex, is_digit, hex_val. intros H. split; [lia|].
  destruct (c <=? 57) eqn:E1; [lia|]. destruct (c <=? 70) eqn:E2; lia.
Qed.
Lemma hex_text_ok v t : hex_text v t -> Forall (fun c => is_hex c = true) t /\ bytes_of_hex t = Ok v.
Proof.
  induction 1 as [|a b c d v t Ha Hb H [IH1 IH2]]; [split; [constructor|reflexivity]|].
  destruct (hex_digit_ok _ _ Ha) as [Ha1 Ha2]. destruct (hex_digit_ok _ _ Hb) as [Hb1 Hb2].
  split; [auto|]. cbn [bytes_of_hex]. rewrite IH2, Ha2, Hb2. reflexivity.
Qed.

(** ** Literals *)
Section Lit.
Context {X : Type}.
Variable number : edm_type -> numeric -> result X.
Variable quoted : edm_type -> str -> result (X * str).
Variable start id : Z -> bool.
Hypothesis Hcl : classes start id.
Notation URI := (ParseURILiteral X number quoted start id).
Notation literal := (literal number quoted).

(** By keyword *)
Lemma uri_word w s rest : lowercase (lit w) = true -> lit w <> [] -> word w s -> id_end id rest ->
  ParseSimpleIdentifier start id (s ++ rest) = Some (s, rest) /\ lower s = lit w.
Proof. intros H1 H2 H3 H4. split; [eapply word_ident; eauto|apply word_lower; auto]. Qed.
Lemma not_X s w : lower s = lit w -> lit w <> lit "x" -> str_eqb s (lit "X") = false.
Proof. intros H Hn. destruct (str_eqb s (lit "X")) eqn:E; [|reflexivity]. apply str_eqb_eq in E. subst s. exfalso. apply Hn. symmetry. exact H. Qed.
Lemma uri_number s n rest : (exists c t, s = c :: t /\ (c = 45 \/ c = 46 \/ 48 <= c <= 57)) ->
  ParseNumericLiteral s = Some (n, rest) ->
  URI s = (let ext t s2 := x <- number t n ;; Ok (Some (mkV (Some t) (Some (PX x)), s2)) in
           let plain := z <- int32_literal n ;; Ok (Some (mkV (Some TInt32) (Some (PInt z)), rest)) in
           match rest with
           | d :: s2 =>
               if (d =? 68) || (d =? 100) then ext TDouble s2
               else if (d =? 70) || (d =? 102) then ext TSingle s2
               else if (d =? 77) || (d =? 109) then ext TDecimal s2
               else if (d =? 76) || (d =? 108) then z <- int64_literal n ;; Ok (Some (mkV (Some TInt64) (Some (PInt z)), s2))
               else plain
           | [] => plain
           end).
Proof.
  intros (c & t & -> & Hc) Hn. unfold ParseURILiteral. rewrite ident_none.
  2:{ destruct Hc as [-> |[-> |Hc]]; [apply (start_mark _ _ Hcl); cbn; auto 12..|apply (cl_digits _ _ Hcl); exact Hc]. }
  rewrite Hn.
  assert (In c [45; 46; 48; 49; 50; 51; 52; 53; 54; 55; 56; 57]) as Hin by (cbn; lia).
  clear Hn Hc. cbn [In] in Hin. repeat (destruct Hin as [<- |Hin]; [reflexivity|]). destruct Hin.
Qed.
Lemma uri_quote t : URI (39 :: t) = ('(v, r) <- string_literal t ;; Ok (Some (mkV (Some TString) (Some (PStr v)), r))).
Proof. unfold ParseURILiteral. rewrite ident_none by (apply (start_mark _ _ Hcl); cbn; auto 12). reflexivity. Qed.
Lemma quote_end rest : id_end id (39 :: rest).
Proof. split; [apply (cl_marks _ _ Hcl); cbn; auto 12|discriminate]. Qed.
Lemma stop_num_end rest : stop rest -> num_end rest.
Proof.
  destruct rest as [|c r]; [trivial|]. cbn [stop In num_end]. unfold is_digit. intros H.
  repeat (destruct H as [<- |H]; [repeat split; discriminate|]). destruct H.
Qed.
Ltac byword w := let E1 := fresh in let E2 := fresh in
  destruct (uri_word w _ _ eq_refl ltac:(discriminate) ltac:(eassumption) ltac:(eassumption)) as [E1 E2];
  unfold ParseURILiteral; rewrite E1; cbv zeta; rewrite E2, (not_X _ w E2 ltac:(discriminate)); clear E1 E2.
Ltac quotedly := match goal with Q : quoted ?t ?r = Ok (?x, _) |- _ = ?g =>
  change (('(x, s3) <- quoted t r ;; s4 <- require_quote s3 ;; Ok (Some (mkV (X:=X) (Some t) (Some (PX x)), s4))) = g); rewrite Q; reflexivity end.
Theorem literal_read v s rest : literal v s -> stop rest -> URI (s ++ rest) = Ok (Some (v, rest)).
Proof.
  intros H Hr. pose proof (stop_id_end _ _ Hcl rest Hr) as Hi. pose proof (stop_num_end rest Hr) as Hne. destruct H.
  - byword "null"%string. reflexivity.
  - byword "true"%string. reflexivity.
  - byword "false"%string. reflexivity.
  - cbn [app]. rewrite uri_quote, <- app_assoc. cbn [app]. rewrite (in_quotes_string _ _ _ H Hr). reflexivity.
  - rewrite <- app_assoc. cbn [app]. rewrite <- app_assoc. cbn [app].
    pose proof (quote_end (t ++ 39 :: rest)) as Hq.
    destruct (hex_text_ok _ _ H0) as [Hh Hb].
    assert (run is_hex (t ++ 39 :: rest) = (t, 39 :: rest)) as Hrun by (apply run_app; [exact Hh|reflexivity]).
    destruct H as [-> |H].
    + assert (ParseSimpleIdentifier start id (lit "X" ++ 39 :: t ++ 39 :: rest) = Some (lit "X", 39 :: t ++ 39 :: rest)) as E.
      { apply ident_app; auto. apply ident_letters; auto; [|discriminate]. constructor; [right; cbn; lia|constructor]. }
      unfold ParseURILiteral. rewrite E. cbv zeta.
      change (('(h, s3) <- Ok (run is_hex (t ++ 39 :: rest)) ;; b <- bytes_of_hex h ;; s4 <- require_quote s3 ;;
               Ok (Some (mkV (X:=X) (Some TBinary) (Some (PBytes b)), s4))) = Ok (Some (mkV (Some TBinary) (Some (PBytes v)), rest))).
      rewrite Hrun. cbn [bind]. rewrite Hb. reflexivity.
    + byword "binary"%string. change (str_eqb (lit "binary") (lit "binary")) with true. cbn [orb].
      change (('(h, s3) <- Ok (run is_hex (t ++ 39 :: rest)) ;; b <- bytes_of_hex h ;; s4 <- require_quote s3 ;;
               Ok (Some (mkV (X:=X) (Some TBinary) (Some (PBytes b)), s4))) = Ok (Some (mkV (Some TBinary) (Some (PBytes v)), rest))).
      rewrite Hrun. cbn [bind]. rewrite Hb. reflexivity.
  - apply integer_decimal in H. destruct H as (sg & d & Hdt & Hd & Hn & Hl & En).
    rewrite (uri_number _ _ _ (decimal_head _ _ rest Hdt) (decimal_app _ _ _ Hdt Hne)). cbv zeta.
    unfold int32_literal. rewrite (int_literal_ok 10 (-2147483648) 2147483647 sg d n Hd Hn Hl En H0). cbn [bind].
    destruct rest as [|c r]; [reflexivity|]. cbn [stop In] in Hr. repeat (destruct Hr as [<- |Hr]; [reflexivity|]). destruct Hr.
  - apply integer_decimal in H. destruct H as (sg & d & Hdt & Hd & Hn & Hl & En).
    rewrite <- app_assoc. cbn [app].
    assert (num_end (c :: rest)) as Hc by (destruct H1 as [-> | ->]; repeat split; discriminate).
    rewrite (uri_number _ _ _ (decimal_head _ _ _ Hdt) (decimal_app _ _ _ Hdt Hc)). cbv zeta.
    unfold int64_literal. rewrite (int_literal_ok 19 _ _ sg d n Hd Hn Hl En H0). cbn [bind].
    destruct H1 as [-> | ->]; reflexivity.
  - rewrite <- app_assoc. cbn [app].
    assert (num_end (c :: rest)) as Hc.
    { cbn [In] in H0. repeat (destruct H0 as [H0|H0]; [inversion H0; repeat split; discriminate|]). destruct H0. }
    rewrite (uri_number _ _ _ (decimal_head _ _ _ H) (decimal_app _ _ _ H Hc)). cbv zeta.
    cbn [In] in H0. repeat (destruct H0 as [H0|H0]; [inversion H0; subst; cbn [Z.eqb Pos.eqb orb]; rewrite H1; reflexivity|]). destruct H0.
  - rewrite <- app_assoc. cbn [app]. rewrite <- app_assoc. cbn [app].
    pose proof (quote_end (s ++ 39 :: rest)) as Hq. specialize (H1 rest).
    cbn [In] in H. repeat (destruct H as [H|H]; [inversion H; subst; clear H|]); [..|destruct H].
    + byword "datetimeoffset"%string. quotedly.
    + byword "datetime"%string. quotedly.
    + byword "time"%string. quotedly.
    + byword "guid"%string. quotedly.
Qed.
End Lit.
