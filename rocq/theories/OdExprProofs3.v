(** Proofs about the texts of expressions: fuel, and that the grammar is what the parser reads. *)
From Coq Require Import Lia ZArith List Bool.
From Verif Require Import Py Iso Dec Shapes XmlChars OdExpr OdExprSpec OdExprProofs OdExprProofs2.
Import ListNotations.
Open Scope Z_scope.
Open Scope list_scope.

(** ** More fuel *)
Definition le_res {A} (a b : result A) : Prop := a = Err OutOfFuel \/ a = b.
Lemma le_res_refl {A} (a : result A) : le_res a a.
Proof. right. reflexivity. Qed.
Lemma le_res_bind {A B} (a b : result A) (f g : A -> result B) : le_res a b -> (forall x, le_res (f x) (g x)) -> le_res (bind a f) (bind b g).
Proof. intros [-> | ->] H; [left; reflexivity|]. destruct b as [x|e]; [apply H|right; reflexivity]. Qed.
Lemma le_res_ok {A} (a b : result A) x : le_res a b -> a = Ok x -> b = Ok x.
Proof. intros [-> | ->]; congruence. Qed.

Section Fuel.
Context {X : Type}.
Variable number : edm_type -> numeric -> result X.
Variable quoted : edm_type -> str -> result (X * str).
Variable start id : Z -> bool.
Notation loop := (expr_loop X number quoted start id).
Notation after := (after start id).

Lemma after_le (L1 L2 : option (expr X) -> list (expr X) -> str -> result (option (expr X) * str)) l st e s :
  (forall l st s, le_res (L1 l st s) (L2 l st s)) -> le_res (after L1 l st e s) (after L2 l st e s).
Proof.
  intros H. unfold OdExpr.after. destruct (next_op _ _ _) as [[o s']|]; [|apply le_res_refl].
  destruct (bind_operand _ _ _ _). apply H.
Qed.
Lemma push_le (L1 L2 : option (expr X) -> list (expr X) -> str -> result (option (expr X) * str)) l st e s :
  (forall l st s, le_res (L1 l st s) (L2 l st s)) -> le_res (push L1 l st e s) (push L2 l st e s).
Proof. intros H. unfold push. destruct (bind_operand _ _ _ _). apply H. Qed.
Lemma args_le (P1 P2 : str -> result (option (expr X) * str)) : (forall s, le_res (P1 s) (P2 s)) ->
  forall f s, le_res (args_loop f P1 s) (args_loop (S f) P2 s).
Proof.
  intros H. induction f as [|f IH]; intros s; [left; reflexivity|]. 
  change (le_res ('(p, s1) <- P1 (wsp s) ;;
      match p with
      | None => Err ValueError
      | Some p =>
          match wsp s1 with
          | 44 :: s2 => '(l, s3) <- args_loop f P1 s2 ;; Ok (p :: l, s3)
          | 41 :: s2 => Ok ([p], s2)
          | _ => Err ValueError
          end
      end) ('(p, s1) <- P2 (wsp s) ;;
      match p with
      | None => Err ValueError
      | Some p =>
          match wsp s1 with
          | 44 :: s2 => '(l, s3) <- args_loop (S f) P2 s2 ;; Ok (p :: l, s3)
          | 41 :: s2 => Ok ([p], s2)
          | _ => Err ValueError
          end
      end)).
  apply le_res_bind; [apply H|]. intros [[p|] s1]; [|apply le_res_refl].
  destruct (wsp s1) as [|c s2]; [apply le_res_refl|].
  destruct (Z.eq_dec c 44) as [->|Hc].
  - apply le_res_bind; [apply IH|]. intros [l s3]. apply le_res_refl.
  - right. destruct c as [|q|q]; try reflexivity. do 6 (destruct q as [q|q|]; try reflexivity). contradiction.
Qed.
Lemma cast_le (P1 P2 : str -> result (option (expr X) * str)) o s : (forall s, le_res (P1 s) (P2 s)) ->
  le_res (cast_like P1 o s) (cast_like P2 o s).
Proof.
  intros H. unfold cast_like. destruct (wsp s) as [|c s1]; [apply le_res_refl|].
  destruct (Z.eq_dec c 40) as [->|Hc].
  2:{ right. destruct c as [|q|q]; try reflexivity. do 6 (destruct q as [q|q|]; try reflexivity). contradiction. }
  apply le_res_bind; [apply H|]. intros [[p|] s2]; [|apply le_res_refl].
  assert (forall s3, le_res
    ('(q, s5) <- P1 (wsp (match s3 with 44 :: s4 => s4 | _ => s3 end)) ;;
     match q with
     | None => Err ValueError
     | Some q =>
         let s6 := wsp s5 in
         let s7 := match s6 with 41 :: s7 => s7 | _ => s6 end in
         if is_string_literal q then Ok (Some (EOp false o [Some p; Some q], s7)) else Err ValueError
     end)
    ('(q, s5) <- P2 (wsp (match s3 with 44 :: s4 => s4 | _ => s3 end)) ;;
     match q with
     | None => Err ValueError
     | Some q =>
         let s6 := wsp s5 in
         let s7 := match s6 with 41 :: s7 => s7 | _ => s6 end in
         if is_string_literal q then Ok (Some (EOp false o [Some p; Some q], s7)) else Err ValueError
     end)) as HH.
  { intros s3. apply le_res_bind; [apply H|]. intros [[q|] s5]; apply le_res_refl. }
  destruct (wsp s2) as [|c s3]; [exact (HH [])|]. specialize (HH (c :: s3)).
  destruct (Z.eq_dec c 41) as [->|Hc]; [apply le_res_refl|].
  destruct c as [|q|q]; try exact HH. do 6 (destruct q as [q|q|]; try exact HH). contradiction.
Qed.
Lemma loop_S f l st s : loop (S f) l st s =
      (let parse := loop f None [] in
      let s := wsp s in
      lv <- ParseURILiteral X number quoted start id s ;;
      match lv with
      | Some (v, s1) => after (loop f) l st (ELit v) s1
      | None =>
          match ParseSimpleIdentifier start id s with
          | Some (name, s1) =>
              if str_eqb name (lit "not") then
                if has_wsp s1 then push (loop f) l st (EOp true ONot []) (wsp s1) else Err ValueError
              else if str_eqb name (lit "isof") || str_eqb name (lit "cast") then
                c <- cast_like parse (if str_eqb name (lit "isof") then OIsof else OCast) (wsp s1) ;;
                match c with
                | Some (e, s2) => after (loop f) l st e s2
                | None => Err ValueError
                end
              else
                match wsp s1 with
                | 40 :: s2 =>
                    if existsb (str_eqb name) methods then
                      '(args, s3) <- args_loop f parse s2 ;; after (loop f) l st (ECall name args) s3
                    else Err ValueError
                | s2 => after (loop f) l st (EProp name) s2
                end
          | None =>
              match s with
              | 40 :: s1 =>
                  '(p, s2) <- parse s1 ;;
                  match p with
                  | None => Err ValueError
                  | Some e =>
                      let s3 := match s2 with 41 :: s3 => s3 | _ => s2 end in
                      if is_unary e then push (loop f) l st e s3 else after (loop f) l st e s3
                  end
              | 45 :: s1 => push (loop f) l st (EOp true ONegate []) s1
              | _ => match l with Some _ => Err ValueError | None => Ok (None, s) end
              end
          end
      end).
Proof. reflexivity. Qed.
Lemma loop_le f : forall l st s, le_res (loop f l st s) (loop (S f) l st s).
Proof.
  induction f as [|f IH]; intros l st s; [left; reflexivity|]. rewrite (loop_S (S f)), (loop_S f). cbv zeta.
  apply le_res_bind; [apply le_res_refl|]. intros [[v s1]|]; [apply after_le, IH|].
  destruct (ParseSimpleIdentifier start id (wsp s)) as [[name s1]|].
  - destruct (str_eqb name (lit "not")).
    { destruct (has_wsp s1); [apply push_le, IH|apply le_res_refl]. }
    destruct (str_eqb name (lit "isof") || str_eqb name (lit "cast")).
    { apply le_res_bind; [apply cast_le, IH|]. intros [[e s2]|]; [apply after_le, IH|apply le_res_refl]. }
    assert (forall s2, le_res (after (loop f) l st (EProp name) s2) (after (loop (S f)) l st (EProp name) s2)) as HA by (intros; apply after_le, IH).
    destruct (wsp s1) as [|c s2]; [apply HA|]. specialize (HA (c :: s2)).
    destruct (Z.eq_dec c 40) as [->|Hc].
    + destruct (existsb _ _); [|apply le_res_refl]. apply le_res_bind; [apply args_le, IH|]. intros [args s3]. apply after_le, IH.
    + destruct c as [|q|q]; try exact HA. do 6 (destruct q as [q|q|]; try exact HA). contradiction.
  - destruct (wsp s) as [|c s1]; [apply le_res_refl|].
    destruct (Z.eq_dec c 40) as [->|H40].
    { apply le_res_bind; [apply IH|]. intros [[e|] s2]; [|apply le_res_refl]. destruct (is_unary e); [apply push_le, IH|apply after_le, IH]. }
    destruct (Z.eq_dec c 45) as [->|H45]; [apply push_le, IH|].
    right. destruct c as [|q|q]; try reflexivity. do 6 (destruct q as [q|q|]; try reflexivity); contradiction.
Qed.
Lemma le_res_trans {A} (a b c : result A) : le_res a b -> le_res b c -> le_res a c.
Proof. intros [-> | ->] H; [left; reflexivity|exact H]. Qed.
Lemma loop_mono f g l st s : (f <= g)%nat -> le_res (loop f l st s) (loop g l st s).
Proof. induction 1 as [|g H IH]; [apply le_res_refl|]. eapply le_res_trans; [exact IH|apply loop_le]. Qed.
Lemma after_mono f g l st e s r : (f <= g)%nat -> after (loop f) l st e s = Ok r -> after (loop g) l st e s = Ok r.
Proof. intros H. apply le_res_ok, after_le. intros. apply loop_mono, H. Qed.
Lemma args_mono f g h s r : (f <= g)%nat -> args_loop f (loop h None []) s = Ok r -> forall k, (h <= k)%nat -> args_loop g (loop k None []) s = Ok r.
Proof.
  intros Hfg H k Hk. revert r H. 
  assert (le_res (args_loop f (loop h None []) s) (args_loop g (loop k None []) s)) as HL.
  2:{ intros r. apply le_res_ok, HL. }
  clear -Hfg Hk.
  assert (forall m, (f <= m)%nat -> le_res (args_loop f (loop h None []) s) (args_loop (S m) (loop k None []) s) /\ le_res (args_loop f (loop h None []) s) (args_loop (S m) (loop h None []) s)) as HH.
  { intros m Hm. induction Hm as [|m Hm [IH1 IH2]].
    - split; apply args_le; intros; [apply loop_mono; exact Hk|apply le_res_refl].
    - split; eapply le_res_trans; [exact IH2|apply args_le; intros; apply loop_mono; exact Hk|exact IH2|apply args_le; intros; apply le_res_refl]. }
  destruct (Nat.eq_dec f g) as [->|].
  - clear HH Hfg. revert s. induction g as [|g IH]; intros s; [left; reflexivity|].
    cbn [args_loop]. apply le_res_bind; [apply loop_mono, Hk|]. intros [[p|] s1]; [|apply le_res_refl].
    destruct (wsp s1) as [|c s2]; [apply le_res_refl|].
    destruct (Z.eq_dec c 44) as [->|Hc].
    + apply le_res_bind; [apply IH|]. intros [l s3]. apply le_res_refl.
    + right. destruct c as [|q|q]; try reflexivity. do 6 (destruct q as [q|q|]; try reflexivity). contradiction.
  - destruct g as [|g]; [lia|]. apply (HH g). lia.
Qed.
End Fuel.
