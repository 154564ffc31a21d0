(** UTF-8; the dictionaries of $expand and $select. *)
From Coq Require Import Permutation.
From Verif Require Import Py Iso Dec Shapes XmlChars Xsd Imscp Uri OdExpr OdExprSpec OdExprProofs OdUri OdUriSpec.
Ltac Zify.zify_convert_to_euclidean_division_equations_flag ::= constr:(true).
Open Scope Z_scope.
Open Scope list_scope.

(** ** UTF-8 *)
Lemma cons_ok_ok c s : cons_ok c (Ok s) = Ok (c :: s). Proof. reflexivity. Qed.
Lemma utf8_round s : Forall (fun c => 0 <= c < 0x110000) s -> of_utf8 (utf8 s) = Ok s.
Proof.
  induction 1 as [|c s Hc H IH]; [reflexivity|]. unfold utf8 in *. cbn [flat_map]. unfold utf8_1 at 1.
  destruct (c <? 0x80) eqn:E1.
  - cbn [app of_utf8]. rewrite E1, IH. reflexivity.
  - destruct (c <? 0x800) eqn:E2.
    + cbn [app of_utf8]. replace (_ <? 0x80) with false by lia. replace (_ <? 0xC2) with false by lia. replace (_ <? 0xE0) with true by lia.
      replace (trail _) with true by (unfold trail; lia). rewrite IH. cbn [cons_ok bind]. do 2 f_equal. lia.
    + destruct (c <? 0x10000) eqn:E3; cbn [app of_utf8]; cbv zeta.
      * replace (_ <? 0x80) with false by lia. replace (_ <? 0xC2) with false by lia. replace (_ <? 0xE0) with false by lia.
        replace (_ <? 0xF0) with true by lia.
        replace (_ * 0x1000 + _ + _) with c by lia.
        replace (trail _ && trail _ && _) with true by (unfold trail; lia). rewrite IH. reflexivity.
      * replace (_ <? 0x80) with false by lia. replace (_ <? 0xC2) with false by lia. replace (_ <? 0xE0) with false by lia.
        replace (_ <? 0xF0) with false by lia. replace (_ <? 0xF5) with true by lia.
        replace (_ * 0x40000 + _ + _ + _) with c by lia.
        replace (trail _ && trail _ && trail _ && _ && _) with true by (unfold trail; lia). rewrite IH. reflexivity.
Qed.
Lemma utf8_octets s : Forall (fun c => 0 <= c < 0x110000) s -> Forall (fun c => 0 <= c < 256) (utf8 s).
Proof.
  induction 1 as [|c s Hc H IH]; [constructor|]. unfold utf8. cbn [flat_map]. apply Forall_app. split; [|exact IH].
  unfold utf8_1. repeat (match goal with |- context[if ?b then _ else _] => destruct b eqn:? end); repeat constructor; lia.
Qed.
Lemma utf8_ascii s : Forall (fun c => 0 <= c < 128) s -> utf8 s = s /\ of_utf8 s = Ok s.
Proof.
  induction 1 as [|c s Hc H IH]; [now split|]. destruct IH as [I1 I2]. split.
  - unfold utf8. cbn [flat_map]. unfold utf8_1. replace (c <? 0x80) with true by lia. cbn [app]. f_equal. exact I1.
  - cbn [of_utf8]. replace (c <? 0x80) with true by lia. rewrite I2. reflexivity.
Qed.

(** ** Dictionaries *)
Lemma seqb_refl s : str_eqb s s = true. Proof. now apply str_eqb_eq. Qed.
Lemma get_put k n v d : get k (put n v d) = if str_eqb n k then Some v else get k d.
Proof.
  induction d as [|[m s] d IH]; cbn [put get]; [reflexivity|].
  destruct (str_eqb m n) eqn:E; cbn [get].
  - apply str_eqb_eq in E. subst. destruct (str_eqb n k) eqn:F; reflexivity.
  - rewrite IH. destruct (str_eqb m k) eqn:F; [|reflexivity]. apply str_eqb_eq in F. subst.
    destruct (str_eqb n k) eqn:G; [|reflexivity]. apply str_eqb_eq in G. subst. now rewrite seqb_refl in E.
Qed.
Lemma get_none n d : get n d = None <-> ~ In n (map fst d).
Proof.
  induction d as [|[m s] d IH]; cbn [get map fst In]; [tauto|].
  destruct (str_eqb m n) eqn:E.
  - apply str_eqb_eq in E. subst. split; [discriminate|]. intros H. destruct H. now left.
  - rewrite IH. assert (m <> n) by (intros ->; now rewrite seqb_refl in E). tauto.
Qed.
Lemma get_in n s d : get n d = Some s -> In (n, s) d.
Proof.
  induction d as [|[m t] d IH]; cbn [get]; [discriminate|]. destruct (str_eqb m n) eqn:E.
  - apply str_eqb_eq in E. intros [= ->]. subst. now left.
  - intros H. right. auto.
Qed.
Lemma in_get n s d : NoDup (map fst d) -> In (n, s) d -> get n d = Some s.
Proof.
  induction d as [|[m t] d IH]; cbn [get map fst In]; intros N H; [easy|]. inversion N; subst. destruct H as [[= -> ->]|H].
  - now rewrite seqb_refl.
  - destruct (str_eqb m n) eqn:E; [|auto]. apply str_eqb_eq in E. subst. destruct H2. apply in_map_iff. now exists (n, s).
Qed.
Lemma put_fst n v d : map fst (put n v d) = if get n d then map fst d else map fst d ++ [n].
Proof.
  induction d as [|[m s] d IH]; cbn [put get map fst]; [reflexivity|]. destruct (str_eqb m n) eqn:E; cbn [map fst]; [reflexivity|].
  rewrite IH. now destruct (get n d).
Qed.
Lemma put_nodup n v d : NoDup (map fst d) -> NoDup (map fst (put n v d)).
Proof.
  intros H. rewrite put_fst. destruct (get n d) eqn:E; [exact H|]. apply get_none in E.
  apply NoDup_rev in H. apply NoDup_rev in H. rewrite rev_involutive in H.
  apply (Permutation_NoDup (l := n :: map fst d)); [apply Permutation_cons_append|]. now constructor.
Qed.
Lemma tidy_nil : tidy []. Proof. constructor; [constructor|]. intros n l []. Qed.
Lemma tidy_get d n s : tidy d -> get n d = Some s -> tidy (sub_dict s).
Proof. intros T H. inversion T; subst. destruct s as [|l]; [apply tidy_nil|]. apply get_in in H. eauto. Qed.
Lemma tidy_put d n v : tidy d -> tidy (sub_dict v) -> tidy (put n v d).
Proof.
  intros T Tv. inversion T; subst. constructor; [now apply put_nodup|]. intros m l I.
  apply in_get in I; [|now apply put_nodup]. rewrite get_put in I. destruct (str_eqb n m) eqn:E.
  - injection I as ->. exact Tv.
  - apply get_in in I. eauto.
Qed.
Lemma holds_nil_path d : ~ holds d []. Proof. intros H. inversion H. Qed.
Lemma holds_nil p : ~ holds [] p. Proof. intros H. inversion H; contradiction. Qed.
Lemma holds_get d n p : tidy d -> holds d (n :: p) <-> exists s, get n d = Some s /\ (p = [] \/ holds (sub_dict s) p).
Proof.
  intros T. inversion T; subst. split.
  - intros Hh. inversion Hh; subst.
    + exists s. split; [now apply in_get|now left].
    + exists (Branch l). split; [now apply in_get|now right].
  - intros (s & G & [-> |Hs]); [apply get_in in G; now apply Holds1 with s|].
    apply get_in in G. destruct s as [|l]; [destruct (holds_nil _ Hs)|]. now apply HoldsSub with l.
Qed.

Lemma begins_cons q n p : begins q (n :: p) <-> exists q', q = n :: q' /\ (q' = [] \/ begins q' p).
Proof.
  unfold begins. split.
  - intros (Hn & r & E). destruct q as [|m q']; [contradiction|]. injection E as <- ->. exists q'. split; [reflexivity|].
    destruct q'; [now left|right]. split; [discriminate|now exists r].
  - intros (q' & -> & [-> |(Hn & r & ->)]); (split; [discriminate|]); [now exists p|now exists r].
Qed.
Lemma begins_nil q : ~ begins q [].
Proof. intros (Hn & r & E). destruct q; [contradiction|discriminate]. Qed.

Lemma add_path_spec p : forall n d, tidy d -> tidy (add_path n p d) /\ forall q, holds (add_path n p d) q <-> holds d q \/ begins q (n :: p).
Proof.
  induction p as [|m p IH]; intros n d T; cbn [add_path].
  - destruct (get n d) as [s|] eqn:E.
    + split; [exact T|]. intros q. split; [tauto|]. intros [H|H]; [exact H|]. apply begins_cons in H. destruct H as (q' & -> & [-> |H]).
      * apply holds_get; [exact T|]. exists s. tauto.
      * now apply begins_nil in H.
    + split; [apply tidy_put; [exact T|apply tidy_nil]|]. intros q. destruct q as [|k q].
      { split; [intros H; now apply holds_nil_path in H|]. intros [H|(H & _)]; [now apply holds_nil_path in H|contradiction]. }
      rewrite (holds_get _ k q (tidy_put d n Leaf T tidy_nil)), (holds_get d k q T), begins_cons. setoid_rewrite get_put.
      destruct (str_eqb n k) eqn:F.
      * apply str_eqb_eq in F. subst k. split.
        -- intros (s & [= <-] & [-> |H]); [right; exists []; tauto|now apply holds_nil in H].
        -- intros [(s & G & _)|(q' & [= <-] & [-> |H])]; [congruence| |now apply begins_nil in H]. exists Leaf. tauto.
      * split; [now left|]. intros [H|(q' & [= -> ->] & _)]; [exact H|now rewrite seqb_refl in F].
  - set (sub := match get n d with Some s => sub_dict s | None => [] end).
    assert (tidy sub) as Ts. { unfold sub. destruct (get n d) eqn:E; [now apply tidy_get in E|apply tidy_nil]. }
    destruct (IH m sub Ts) as [T' H']. split; [now apply tidy_put|]. intros q. destruct q as [|k q].
    { split; [intros H; now apply holds_nil_path in H|]. intros [H|(H & _)]; [now apply holds_nil_path in H|contradiction]. }
    rewrite (holds_get _ k q (tidy_put d n (Branch _) T T')), (holds_get d k q T), begins_cons. setoid_rewrite get_put.
    destruct (str_eqb n k) eqn:F.
    + apply str_eqb_eq in F. subst k. split.
      * intros (s & [= <-] & [-> |H]); [right; exists []; tauto|]. cbn [sub_dict] in H. apply H' in H. destruct H as [H|H].
        -- left. unfold sub in H. destruct (get n d) as [s|]; [|now apply holds_nil in H]. exists s. tauto.
        -- right. exists q. tauto.
      * intros H. eexists. split; [reflexivity|]. cbn [sub_dict]. rewrite H'. destruct H as [(s & G & [-> |H])|(q' & [= <-] & [-> |H])]; try tauto.
        right. left. unfold sub. now rewrite G.
    + split; [now left|]. intros [H|(q' & [= -> ->] & _)]; [exact H|now rewrite seqb_refl in F].
Qed.

(** Adding a list of paths *)
Definition add_one (d : list (str * sel)) (p : list str) : list (str * sel) :=
  match p with [] => d | n :: p' => add_path n p' d end.
Lemma add_all ps : Forall (fun p => p <> []) ps -> forall d, tidy d -> tidy (fold_left add_one ps d) /\
  forall q, holds (fold_left add_one ps d) q <-> holds d q \/ exists p, In p ps /\ begins q p.
Proof.
  induction 1 as [|p ps Hp H IH]; intros d T; cbn [fold_left].
  - split; [exact T|]. intros q. split; [tauto|]. intros [Hq|(p & [] & _)]. exact Hq.
  - destruct p as [|n p]; [contradiction|]. cbn [add_one]. destruct (add_path_spec p n d T) as [T1 H1].
    destruct (IH _ T1) as [T2 H2]. split; [exact T2|]. intros q. rewrite H2, H1. split.
    + intros [[Hq|Hq]|(p' & I & Hq)]; [now left|right; exists (n :: p); split; [now left|exact Hq]|right; exists p'; split; [now right|exact Hq]].
    + intros [Hq|(p' & [<- |I] & Hq)]; [tauto|tauto|]. right. now exists p'.
Qed.
Lemma add_all_nil ps : Forall (fun p => p <> []) ps -> tidy (fold_left add_one ps []) /\ holds_just (fold_left add_one ps []) ps.
Proof.
  intros H. destruct (add_all ps H [] tidy_nil) as [T E]. split; [exact T|]. intros q. rewrite E. split; [|now right].
  intros [Hq|Hq]; [now apply holds_nil in Hq|exact Hq].
Qed.
