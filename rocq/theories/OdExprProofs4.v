(** Proofs about the texts of expressions: the parser always ends. *)
From Coq Require Import Lia ZArith List Bool.
From Verif Require Import Py Iso Dec Shapes XmlChars OdExpr OdExprSpec OdExprProofs OdExprProofs2 OdExprProofs3.
Import ListNotations.
Open Scope Z_scope.
Open Scope list_scope.

Lemma run_len2 p s : forall a b, run p s = (a, b) -> (length s = length a + length b)%nat.
Proof.
  induction s as [|c s IH]; intros a b H; cbn [run] in H.
  - inversion H. reflexivity.
  - destruct (p c).
    + destruct (run p s) as [x y] eqn:E. inversion H; subst. specialize (IH _ _ eq_refl). cbn [length]. lia.
    + inversion H; subst. reflexivity.
Qed.
Lemma skip_insensitive_len2 p s s' : skip_insensitive p s = Some s' -> (length s = length p + length s')%nat.
Proof.
  unfold skip_insensitive. destruct (str_eqb _ _) eqn:E; [|discriminate]. apply str_eqb_eq in E. intros H. inversion H; subst s'. clear H.
  assert (length (lower (firstn (length p) s)) = length p) as HL by (rewrite E; reflexivity).
  unfold lower in HL. rewrite map_length, firstn_length in HL. rewrite skipn_length. lia.
Qed.
Lemma after_sign_len sg s n r : after_sign sg s = Some (n, r) -> (length r < length s)%nat.
Proof.
  unfold after_sign.
  destruct (skip_insensitive (lit "inf") s) as [s2|] eqn:E1.
  { apply skip_insensitive_len2 in E1. cbn [length lit] in E1. intros H. inversion H; subst. cbn in E1. lia. }
  destruct (skip_insensitive (lit "nan") s) as [s2|] eqn:E2.
  { apply skip_insensitive_len2 in E2. intros H. inversion H; subst. cbn in E2. lia. }
  destruct (run is_digit s) as [l s2] eqn:El. apply run_len2 in El.
  set (m := match s2 with 46 :: s3 => let '(r, s4) := run is_digit s3 in (Some r, s4) | _ => (None, s2) end).
  assert (match fst m with None => snd m = s2 | Some d => (length s2 = 1 + length d + length (snd m))%nat end) as Hm.
  { subst m. destruct s2 as [|c s3]; [reflexivity|]. destruct (Z.eq_dec c 46) as [->|Hc].
    - destruct (run is_digit s3) as [d s4] eqn:E. apply run_len2 in E. cbn [fst snd length]. lia.
    - rewrite (not46 c s3 (fun s3 => let '(r, s4) := run is_digit s3 in (Some r, s4)) (None, c :: s3) Hc). reflexivity. }
  destruct m as [rr s3]. cbn [fst snd] in Hm.
  intros H.
  assert ((length s3 < length s)%nat) as H3.
  { destruct l as [|a l]; destruct rr as [[|b d]|]; cbn [length] in *; try discriminate; subst; lia. }
  assert ((match s3 with
              | e :: s4 =>
                  if (e =? 101) || (e =? 69) then
                    let '(es, s5) := match s4 with 45 :: s5 => ([45], s5) | _ => ([43], s4) end in
                    let '(d, s6) := run is_digit s5 in
                    Some (mkNum sg l rr es (Some d), s6)
                  else Some (mkNum sg l rr [] None, s3)
              | [] => Some (mkNum sg l rr [] None, s3)
              end) = Some (n, r)) as H'.
  { destruct l as [|a l]; destruct rr as [[|b d]|]; try exact H; discriminate. }
  clear H. destruct s3 as [|e s4]; [inversion H'; subst; lia|].
  destruct ((e =? 101) || (e =? 69)); [|inversion H'; subst; lia].
  set (k := match s4 with 45 :: s5 => ([45], s5) | _ => ([43], s4) end) in H'.
  assert (length (snd k) <= length s4)%nat as Hk.
  { subst k. destruct s4 as [|c s5]; [reflexivity|]. destruct (Z.eq_dec c 45) as [->|Hc]; [cbn; lia|].
    rewrite (not45 c s5 (fun s5 => ([45], s5)) ([43], c :: s5) Hc). cbn [snd]. lia. }
  destruct k as [es s5]. cbn [snd] in Hk. destruct (run is_digit s5) as [d s6] eqn:E. apply run_len2 in E.
  inversion H'; subst. cbn [length] in *. lia.
Qed.
Lemma numeric_len s n r : ParseNumericLiteral s = Some (n, r) -> (length r < length s)%nat.
Proof.
  rewrite numeric_sign. destruct s as [|c s]; [apply after_sign_len|].
  destruct (Z.eq_dec c 45) as [->|Hc].
  - intros H. apply after_sign_len in H. cbn [length]. lia.
  - rewrite (not45 c s (after_sign [45]) (after_sign [] (c :: s)) Hc). apply after_sign_len.
Qed.
Lemma not39 {A} c t (f : str -> A) (g : A) : c <> 39 -> match c :: t with 39 :: s5 => f s5 | _ => g end = g.
Proof. intros H. destruct c as [|p|p]; try reflexivity. do 6 (destruct p as [p|p|]; try reflexivity). contradiction. Qed.
Lemma require_quote_spec s : match require_quote s with Ok r => (length s = S (length r))%nat | Err e => e = ValueError end.
Proof.
  unfold require_quote. destruct s as [|c s]; [reflexivity|]. destruct (Z.eq_dec c 39) as [->|Hc]; [reflexivity|].
  rewrite (not39 c s (fun s' => Ok s') (Err ValueError) Hc). reflexivity.
Qed.
Lemma string_literal_spec s : match string_literal s with Ok (_, r) => (length r <= length s)%nat | Err e => e = ValueError end.
Proof.
  assert (forall n s, (length s <= n)%nat -> match string_literal s with Ok (_, r) => (length r <= length s)%nat | Err e => e = ValueError end) as H.
  2:{ apply (H (length s)). lia. }
  clear s. induction n as [|n IH]; intros s Hn; (destruct s as [|c s]; [reflexivity|cbn [length] in Hn]); [lia|].
  destruct (Z.eq_dec c 39) as [->|Hc].
  - cbn [string_literal]. destruct s as [|d s]; [cbn; lia|]. destruct (Z.eq_dec d 39) as [->|Hd].
    + cbn [length] in Hn. specialize (IH s ltac:(lia)). destruct (string_literal s) as [[v r]|e]; cbn [bind]; [|exact IH].
      cbn [length]. lia.
    + rewrite (not39 d s (fun s2 => '(v, r) <- string_literal s2 ;; Ok (39 :: v, r)) (Ok ([], d :: s)) Hd). cbn [length]. lia.
  - assert (string_literal (c :: s) = ('(v, r) <- string_literal s ;; Ok (c :: v, r))) as ->.
    { destruct c as [|p|p]; try reflexivity. do 6 (destruct p as [p|p|]; try reflexivity). contradiction. }
    specialize (IH s ltac:(lia)). destruct (string_literal s) as [[v r]|e]; cbn [bind]; [|exact IH]. cbn [length]. lia.
Qed.
Lemma bytes_of_hex_err s : match bytes_of_hex s with Ok _ => True | Err e => e = ValueError end.
Proof.
  assert (forall n s, (length s <= n)%nat -> match bytes_of_hex s with Ok _ => True | Err e => e = ValueError end) as H.
  2:{ apply (H (length s)). lia. }
  clear s. induction n as [|n IH]; intros s Hn; (destruct s as [|a [|b s]]; [exact I|reflexivity|cbn [length] in Hn]); [lia|].
  cbn [bytes_of_hex]. specialize (IH s ltac:(lia)). destruct (bytes_of_hex s); cbn [bind]; trivial.
Qed.

Section Total.
Context {X : Type}.
Variable number : edm_type -> numeric -> result X.
Variable quoted : edm_type -> str -> result (X * str).
Variable start id : Z -> bool.
Hypothesis Hrd : readers number quoted.
Notation loop := (expr_loop X number quoted start id).
Notation after := (after start id).
Notation URI := (ParseURILiteral X number quoted start id).

Definition uri_good (s : str) (x : result (option (value X * str))) : Prop :=
  match x with Ok (Some (_, r)) => (length r < length s)%nat | Ok None => True | Err e => e = ValueError end.
Lemma num_good t n s1 s v : (length s1 < length s)%nat ->
  uri_good s (x <- number t n ;; Ok (Some (v x, s1))).
Proof. intros H. destruct (number t n) as [x|e] eqn:E; cbn [bind uri_good]; [exact H|exact (rd_number _ _ Hrd _ _ _ E)]. Qed.
Lemma ext_good t s1 s v : (length s1 < length s)%nat ->
  uri_good s (s2 <- require_quote s1 ;; '(x, s3) <- quoted t s2 ;; s4 <- require_quote s3 ;; Ok (Some (v x, s4))).
Proof.
  intros H. pose proof (require_quote_spec s1) as H1. destruct (require_quote s1) as [s2|e]; cbn [bind]; [|exact H1].
  destruct (quoted t s2) as [[x s3]|e] eqn:E; cbn [bind]; [|exact (rd_quoted _ _ Hrd _ _ _ E)].
  apply (rd_rest _ _ Hrd) in E. pose proof (require_quote_spec s3) as H3. destruct (require_quote s3) as [s4|e]; cbn [bind uri_good]; [lia|exact H3].
Qed.
Lemma int_good m lo hi n s1 s v : (length s1 < length s)%nat -> uri_good s (z <- int_literal m lo hi n ;; Ok (Some (v z, s1))).
Proof. intros H. destruct (int_literal m lo hi n) as [z|e] eqn:E; cbn [bind uri_good]; [exact H|exact (int_literal_err _ _ _ _ _ E)]. Qed.
Lemma uri_total s : uri_good s (URI s).
Proof.
  unfold ParseURILiteral. destruct (ParseSimpleIdentifier start id s) as [[name s1]|] eqn:E.
  - apply ident_len in E. cbv zeta.
    repeat match goal with |- uri_good _ (if ?b then _ else _) => destruct b end;
      try apply num_good; try apply ext_good; try exact E; try exact I.
    pose proof (require_quote_spec s1) as H1. destruct (require_quote s1) as [s2|e]; cbn [bind]; [|exact H1].
    destruct (run is_hex s2) as [h s3] eqn:Er. apply run_len in Er.
    pose proof (bytes_of_hex_err h) as Hb. destruct (bytes_of_hex h) as [b|e]; cbn [bind]; [|exact Hb].
    pose proof (require_quote_spec s3) as H3. destruct (require_quote s3) as [s4|e]; cbn [bind uri_good]; [lia|exact H3].
  - destruct s as [|c s]; [exact I|].
    destruct (Z.eq_dec c 39) as [->|Hc].
    { pose proof (string_literal_spec s) as H. destruct (string_literal s) as [[v r]|e]; cbn [bind uri_good length]; [lia|exact H]. }
    match goal with |- uri_good _ ?tt0 => assert (tt0 = if (c =? 45) || (c =? 46) || is_digit c then
            match ParseNumericLiteral (c :: s) with
            | None => Ok None
            | Some (n, s1) =>
                let ext t s2 := x <- number t n ;; Ok (Some (mkV (Some t) (Some (PX x)), s2)) in
                let plain := z <- int32_literal n ;; Ok (Some (mkV (Some TInt32) (Some (PInt z)), s1)) in
                match s1 with
                | d :: s2 =>
                    if (d =? 68) || (d =? 100) then ext TDouble s2
                    else if (d =? 70) || (d =? 102) then ext TSingle s2
                    else if (d =? 77) || (d =? 109) then ext TDecimal s2
                    else if (d =? 76) || (d =? 108) then z <- int64_literal n ;; Ok (Some (mkV (Some TInt64) (Some (PInt z)), s2))
                    else plain
                | [] => plain
                end
            end
          else Ok None) as -> end.
    { clear E. destruct c as [|p|p]; try reflexivity. do 6 (destruct p as [p|p|]; try reflexivity). contradiction. }
    destruct (_ || _); [|exact I]. destruct (ParseNumericLiteral (c :: s)) as [[n s1]|] eqn:En; [|exact I].
    apply numeric_len in En. cbv zeta. destruct s1 as [|d s2]; [apply int_good; exact En|].
    cbn [length] in En.
    repeat match goal with |- uri_good _ (if ?b then _ else _) => destruct b end;
      try apply num_good; try apply int_good; cbn [length]; lia.
Qed.

Definition good {A} (s : str) (x : result (A * str)) : Prop :=
  match x with Ok (_, r) => (length r <= length s)%nat | Err e => e = ValueError end.
Lemma good_shorter {A} s t (x : result (A * str)) : good t x -> (length t <= length s)%nat -> good s x.
Proof. unfold good. destruct x as [[a r]|e]; [lia|auto]. Qed.
Lemma next_op_len s o r : next_op start id s = Some (o, r) -> (length r < length s)%nat.
Proof.
  unfold next_op. intros H. 
  assert (forall s, match ParseSimpleIdentifier start id s with
      | Some (name, s') => match op_of_name name with Some o => if special o then None else Some (o, s') | None => None end
      | None => None
      end = Some (o, r) -> (length r < length s)%nat) as HH.
  { clear. intros s H. destruct (ParseSimpleIdentifier start id s) as [[n s']|] eqn:E; [|discriminate]. apply ident_len in E.
    destruct (op_of_name n); [|discriminate]. destruct (special o0); [discriminate|]. inversion H; subst. exact E. }
  destruct s as [|c s]; [apply HH; exact H|]. destruct (Z.eq_dec c 47) as [->|Hc]; [inversion H; subst; cbn; lia|].
  apply HH. rewrite <- H. destruct c as [|q|q]; try reflexivity. do 6 (destruct q as [q|q|]; try reflexivity). contradiction.
Qed.
Lemma after_good (L : option (expr X) -> list (expr X) -> str -> result (option (expr X) * str)) l st e s : (forall l st t, (length t < length s)%nat -> good t (L l st t)) -> good s (after L l st e s).
Proof.
  intros H. unfold OdExpr.after. pose proof (wsp_len s) as Hw. destruct (next_op start id (wsp s)) as [[o s']|] eqn:E; [|cbn; lia].
  apply next_op_len in E. destruct (bind_operand _ _ _ _). eapply good_shorter; [apply H; lia|lia].
Qed.
Lemma push_good (L : option (expr X) -> list (expr X) -> str -> result (option (expr X) * str)) l st e s :
  (forall l st, good s (L l st s)) -> good s (push L l st e s).
Proof. intros H. unfold push. destruct (bind_operand _ _ _ _). apply H. Qed.
Lemma not44 {A} c t (f : str -> A) (g : str -> A) (h : A) : c <> 44 -> c <> 41 -> match c :: t with 44 :: s2 => f s2 | 41 :: s2 => g s2 | _ => h end = h.
Proof. intros H1 H2. destruct c as [|p|p]; try reflexivity. do 6 (destruct p as [p|p|]; try reflexivity); contradiction. Qed.
Lemma args_good P f : forall s, (length s < f)%nat -> (forall t, (length t <= length s)%nat -> good t (P t)) ->
  good s (args_loop (X:=X) f P s).
Proof.
  induction f as [|f IH]; intros s Hf HP; [lia|]. cbn [args_loop]. pose proof (wsp_len s) as Hw.
  pose proof (HP (wsp s) Hw) as H1. destruct (P (wsp s)) as [[p s1]|e]; cbn [bind]; [|exact H1].
  destruct p as [p|]; [|reflexivity]. cbn [good] in H1. pose proof (wsp_len s1) as Hw1.
  destruct (wsp s1) as [|c s2]; [reflexivity|]. cbn [length] in Hw1.
  destruct (Z.eq_dec c 44) as [->|H44].
  { assert (good s2 (args_loop f P s2)) as H2 by (apply IH; [lia|intros; apply HP; lia]).
    destruct (args_loop f P s2) as [[l s3]|e]; cbn [bind]; [|exact H2]. cbn [good] in *. lia. }
  destruct (Z.eq_dec c 41) as [->|H41]; [cbn [good]; lia|].
  rewrite (not44 c s2 (fun s2 => '(l, s3) <- args_loop f P s2 ;; Ok (p :: l, s3)) (fun s2 => Ok ([p], s2)) (Err ValueError) H44 H41). reflexivity.
Qed.
Lemma skip41 (s : str) : Nat.le (length (match s with 41 :: s7 => s7 | _ => s end)) (length s).
Proof. destruct s as [|c t]; [cbn; lia|]. destruct c as [|p|p]; cbn [length]; try lia. do 6 (destruct p as [p|p|]; cbn [length]; try lia). Qed.
Lemma skip44 (s : str) : Nat.le (length (match s with 44 :: s7 => s7 | _ => s end)) (length s).
Proof. destruct s as [|c t]; [cbn; lia|]. destruct c as [|p|p]; cbn [length]; try lia. do 6 (destruct p as [p|p|]; cbn [length]; try lia). Qed.
Lemma cast_good P o s : (forall t, (length t < length s)%nat -> good t (P t)) ->
  match cast_like (X:=X) P o s with Ok (Some (_, r)) => (length r < length s)%nat | Ok None => True | Err e => e = ValueError end.
Proof.
  intros HP. unfold cast_like. pose proof (wsp_len s) as Hw. destruct (wsp s) as [|c s1]; [trivial|]. cbn [length] in Hw.
  destruct (Z.eq_dec c 40) as [->|Hc].
  2:{ destruct c as [|p|p]; trivial. do 6 (destruct p as [p|p|]; trivial). contradiction. }
  pose proof (HP s1 ltac:(lia)) as H1. destruct (P s1) as [[p s2]|e]; cbn [bind]; [|exact H1].
  destruct p as [p|]; [|reflexivity]. cbn [good] in H1. pose proof (wsp_len s2) as Hw2.
  assert (forall s3, (length s3 <= length s2)%nat ->
    match ('(q, s5) <- P (wsp (match s3 with 44 :: s4 => s4 | _ => s3 end)) ;;
     match q with
     | None => Err ValueError
     | Some q =>
         let s6 := wsp s5 in
         let s7 := match s6 with 41 :: s7 => s7 | _ => s6 end in
         if is_string_literal q then Ok (Some (EOp false o [Some p; Some q], s7)) else Err ValueError
     end) with Ok (Some (_, r)) => (length r < length s)%nat | Ok None => True | Err e => e = ValueError end) as HH.
  { intros s3 H3. pose proof (skip44 s3) as H4. set (s4 := match s3 with 44 :: s4 => s4 | _ => s3 end) in *.
    pose proof (wsp_len s4) as Hw4. pose proof (HP (wsp s4) ltac:(lia)) as H5.
    destruct (P (wsp s4)) as [[q s5]|e]; cbn [bind]; [|exact H5]. destruct q as [q|]; [|reflexivity]. cbn [good] in H5.
    cbv zeta. pose proof (wsp_len s5) as Hw5. pose proof (skip41 (wsp s5)) as H7.
    destruct (is_string_literal q); [|reflexivity]. lia. }
  destruct (wsp s2) as [|c s3]; [apply (HH []); cbn; lia|]. specialize (HH (c :: s3)). cbn [length] in *.
  destruct (Z.eq_dec c 41) as [->|Hc]; [destruct (is_string_literal p); [lia|reflexivity]|].
  specialize (HH Hw2). destruct c as [|q|q]; try exact HH. do 6 (destruct q as [q|q|]; try exact HH). contradiction.
Qed.

Theorem loop_good f : forall l st s, (length s < f)%nat -> good s (loop f l st s).
Proof.
  induction f as [|f IH]; intros l st s Hf; [lia|]. rewrite loop_S. cbv zeta. pose proof (wsp_len s) as Hw. set (t := wsp s) in *.
  apply (good_shorter s t); [|exact Hw]. assert (length t <= f)%nat as Ht by lia. clearbody t. clear Hw Hf s.
  pose proof (uri_total t) as Hu. destruct (URI t) as [[[v s1]|]|e]; cbn [bind]; [| |exact Hu].
  { cbn [uri_good] in Hu. eapply good_shorter; [apply after_good; intros; apply IH; lia|lia]. }
  destruct (ParseSimpleIdentifier start id t) as [[name s1]|] eqn:E.
  - apply ident_len in E. pose proof (wsp_len s1) as Hw1. destruct (str_eqb name (lit "not")).
    { destruct (has_wsp s1); [|reflexivity]. eapply good_shorter; [apply push_good; intros; apply IH; lia|lia]. }
    destruct (str_eqb name (lit "isof") || str_eqb name (lit "cast")).
    { pose proof (cast_good (loop f None []) (if str_eqb name (lit "isof") then OIsof else OCast) (wsp s1)) as Hc.
      specialize (Hc ltac:(intros; apply IH; lia)).
      destruct (cast_like _ _ _) as [[[e s2]|]|e]; cbn [bind]; [|reflexivity|exact Hc].
      eapply good_shorter; [apply after_good; intros; apply IH; lia|lia]. }
    assert (forall u, (length u < length t)%nat -> good t (after (loop f) l st (EProp name) u)) as HA.
    { intros u Hu'. eapply good_shorter; [apply after_good; intros; apply IH; lia|lia]. }
    destruct (wsp s1) as [|c s2]; [apply HA; cbn in *; lia|]. specialize (HA (c :: s2)). cbn [length] in *.
    destruct (Z.eq_dec c 40) as [->|Hc].
    + destruct (existsb _ _); [|reflexivity].
      assert (good s2 (args_loop f (loop f None []) s2)) as Ha by (apply args_good; [lia|intros; apply IH; lia]).
      destruct (args_loop _ _ _) as [[args s3]|e]; cbn [bind]; [|exact Ha]. cbn [good] in Ha.
      eapply good_shorter; [apply after_good; intros; apply IH; lia|lia].
    + specialize (HA ltac:(lia)). destruct c as [|q|q]; try exact HA. do 6 (destruct q as [q|q|]; try exact HA). contradiction.
  - destruct t as [|c s1]; [destruct l; [reflexivity|cbn; lia]|]. cbn [length] in *.
    destruct (Z.eq_dec c 40) as [->|H40].
    { pose proof (IH None [] s1 ltac:(lia)) as H1. destruct (loop f None [] s1) as [[p s2]|e]; cbn [bind]; [|exact H1].
      cbn [good] in H1. destruct p as [e|]; [|reflexivity]. cbv zeta. pose proof (skip41 s2) as H3.
      set (s3 := match s2 with 41 :: s3 => s3 | _ => s2 end) in *. clearbody s3.
      destruct (is_unary e).
      - eapply good_shorter; [apply push_good; intros; apply IH; lia|cbn [length]; lia].
      - eapply good_shorter; [apply after_good; intros; apply IH; lia|cbn [length]; lia]. }
    destruct (Z.eq_dec c 45) as [->|H45].
    { eapply good_shorter; [apply push_good; intros; apply IH; lia|cbn [length]; lia]. }
    assert (good (c :: s1) (match l with Some _ => Err ValueError | None => Ok (@None (expr X), c :: s1) end)) as Hg.
    { destruct l; [reflexivity|cbn; lia]. }
    destruct c as [|q|q]; try exact Hg. do 6 (destruct q as [q|q|]; try exact Hg); contradiction.
Qed.
Theorem FromString_total s : match FromString X number quoted start id s with Ok _ => True | Err e => e = ValueError end.
Proof.
  unfold FromString, ParseCommonExpression. pose proof (loop_good (S (length s)) None [] s ltac:(lia)) as H.
  destruct (loop _ _ _ _) as [[e r]|e]; cbn [bind]; [|exact H]. destruct e; [|reflexivity]. destruct r; [trivial|reflexivity].
Qed.
(** A result with some fuel is the result with enough fuel *)
Lemma loop_enough f s r : loop f None [] s = Ok r -> ParseCommonExpression X number quoted start id s = Ok r.
Proof.
  intros H. unfold ParseCommonExpression. pose proof (loop_good (S (length s)) None [] s ltac:(lia)) as Hg.
  destruct (Nat.le_ge_cases f (S (length s))) as [Hl|Hl].
  - eapply le_res_ok; [apply loop_mono; exact Hl|exact H].
  - destruct (loop_mono number quoted start id _ _ None [] s Hl) as [E|E]; [rewrite E in Hg; discriminate|]. rewrite E. exact H.
Qed.
End Total.
