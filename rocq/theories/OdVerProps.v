(** The properties of the negotiation of the protocol version *)
From Coq Require Import Lia.
From Verif Require Import Py OdVer OdVerSpec.
Open Scope Z_scope.
Open Scope list_scope.

Lemma digit_ok c : digit c = true <-> 48 <= c <= 57.
Proof. unfold digit. rewrite andb_true_iff, !Z.leb_le. tauto. Qed.
Lemma int_snoc s c : int (s ++ [c]) = 10 * int s + (c - 48).
Proof. unfold int. now rewrite fold_left_app. Qed.
Lemma denotes_spec s : forall n, denotes s n <-> IsDIGITS s = true /\ int s = n.
Proof.
  induction s as [|c s IH] using rev_ind; intros n.
  - split; [intros H; inversion H as [|s' m c' _ _ E]; destruct s'; discriminate|intros [H _]; discriminate].
  - assert (IsDIGITS (s ++ [c]) = forallb digit s && digit c) as ->.
    { replace (IsDIGITS (s ++ [c])) with (forallb digit (s ++ [c])) by (destruct s; reflexivity). rewrite forallb_app. cbn [forallb]. now rewrite andb_true_r. }
    rewrite int_snoc, andb_true_iff, digit_ok. split.
    + intros H. inversion H as [d Hd E|s' m d Hm Hd E].
      * destruct s as [|x s]; [|destruct s; discriminate]. injection E as ->. subst n. split; [split; [reflexivity|assumption]|]. unfold int. cbn. lia.
      * apply app_inj_tail in E. destruct E as [-> ->]. apply IH in Hm. destruct Hm as [Q1 Q2]. split; [|congruence]. split; [|assumption].
        destruct s; [discriminate|exact Q1].
    + intros [[H1 H2] <-]. destruct s as [|x s].
      * cbn [app]. replace (10 * int [] + (c - 48)) with (c - 48) by (unfold int; cbn; lia). now constructor.
      * constructor; [|assumption]. apply IH. split; [exact H1|reflexivity].
Qed.
Lemma split_at_none c : forall s cur, ~ In c s -> split_at c cur s = [cur ++ s].
Proof.
  induction s as [|d r IH]; intros cur H; cbn [split_at]; [now rewrite app_nil_r|].
  assert ((d =? c) = false) as -> by (apply Z.eqb_neq; intros ->; apply H; now left).
  rewrite IH by (intros X; apply H; now right). now rewrite <- app_assoc.
Qed.
Lemma split_at_some c : forall a b cur, ~ In c a -> split_at c cur (a ++ c :: b) = (cur ++ a) :: split_at c [] b.
Proof.
  induction a as [|d r IH]; intros b cur H; cbn [split_at app]; [now rewrite Z.eqb_refl, app_nil_r|].
  assert ((d =? c) = false) as -> by (apply Z.eqb_neq; intros ->; apply H; now left).
  rewrite IH by (intros X; apply H; now right). now rewrite <- app_assoc.
Qed.
Lemma cut (c : Z) : forall s, ~ In c s \/ exists a b, s = a ++ c :: b /\ ~ In c a.
Proof.
  induction s as [|d r [IH|(a & b & -> & IH)]]; [left; intros []| |].
  - destruct (Z.eq_dec d c) as [-> |N]; [right; exists [], r; split; [reflexivity|intros []]|]. left. intros [X|X]; contradiction.
  - right. destruct (Z.eq_dec d c) as [-> |N]; [exists [], (a ++ c :: b); split; [reflexivity|intros []]|].
    exists (d :: a), b. split; [reflexivity|]. intros [X|X]; contradiction.
Qed.
Lemma digits_no_dot s : IsDIGITS s = true -> ~ In 46 s.
Proof.
  intros H I. assert (forallb digit s = true) as F by (destruct s; [discriminate|exact H]). rewrite forallb_forall in F. specialize (F 46 I). discriminate.
Qed.
Theorem version_spec token src v : version_of token src = Some v <-> exists t, token src = Some t /\ version_text t v.
Proof.
  unfold version_of, split. destruct (token src) as [t|]; [|split; [discriminate|intros (t & X & _); discriminate]].
  assert (match split_at 46 [] t with [a; b] => if IsDIGITS a && IsDIGITS b then Some (int a, int b) else None | _ => None end = Some v <-> version_text t v) as ->.
  { split.
    - destruct (cut 46 t) as [N|(a & b & -> & Na)]; [rewrite split_at_none by assumption; discriminate|]. rewrite split_at_some by assumption. cbn [app].
      destruct (cut 46 b) as [Nb|(b1 & b2 & -> & Nb)].
      + rewrite split_at_none by assumption. cbn [app]. destruct (IsDIGITS a) eqn:A; [|discriminate]. destruct (IsDIGITS b) eqn:B; [|discriminate].
        intros [= <-]. exists a, b. split; [reflexivity|]. cbn [fst snd]. split; now apply denotes_spec.
      + rewrite split_at_some by assumption. destruct (split_at 46 [] b2) eqn:E; [|discriminate].
        exfalso. clear - E. destruct b2 as [|c r]; [discriminate|]. revert E. generalize (@nil Z) as cur. revert c. induction r as [|d r IH]; intros c cur; cbn [split_at]; destruct (c =? 46); try discriminate. apply IH.
    - intros (a & b & -> & Ha & Hb). apply denotes_spec in Ha, Hb. destruct Ha as [A1 A2], Hb as [B1 B2].
      rewrite split_at_some by (now apply digits_no_dot). rewrite split_at_none by (now apply digits_no_dot). cbn [app]. rewrite A1, B1, A2, B2. destruct v; reflexivity. }
  split; [eauto|]. intros (t' & [= <-] & H). exact H.
Qed.

(** ** C259: the request is handled just if its version is at most 2.0; the answer is in version 2.0
    if the greatest version allowed is at least that, or 1.0 *)
Section Negotiation.
Variable token : str -> option str.
(** The value of a header that is there is a version *)
Definition says (value : option str) (default v : Z * Z) : Prop :=
  match value with None => v = default | Some s => exists t, token s = Some t /\ version_text t v end.
(** Of MaxDataServiceVersion, what is before the first semicolon *)
Definition before_semicolon (value part : option str) : Prop :=
  match value, part with
  | None, None => True
  | Some s, Some p => ~ In 59 p /\ (s = p \/ exists r, s = p ++ 59 :: r)
  | _, _ => False
  end.
Theorem C259_partial : forall version maxVersion part v m, before_semicolon maxVersion part -> says version (2, 0) v -> says part v m ->
  (Negotiate token version maxVersion = Mismatch <-> ~ not_later v (2, 0)) /\
  (not_later v (2, 0) -> exists major, Negotiate token version maxVersion = Handled major /\
     (major = 2 /\ not_later (2, 0) m \/ major = 1 /\ ~ not_later (2, 0) m)).
Proof.
  intros version maxVersion part v m P Sv Sm. unfold Negotiate.
  assert (match version with Some s => ParseDataServiceVersion token s | None => Some (2, 0) end = Some v) as ->.
  { destruct version as [s|]; [|now rewrite Sv]. now apply version_spec. }
  destruct v as [major minor].
  assert (match maxVersion with Some s => ParseMaxDataServiceVersion token s | None => Some (major, minor) end = Some m) as ->.
  { destruct maxVersion as [s|], part as [p|]; try contradiction; [|now rewrite Sm]. destruct P as [Np P]. cbn [says] in Sm.
    unfold ParseMaxDataServiceVersion, split. destruct P as [-> |[r ->]].
    - rewrite split_at_none by assumption. cbn [app]. now apply version_spec.
    - rewrite split_at_some by assumption. cbn [app]. now apply version_spec. }
  destruct m as [mj mn].
  assert (0 <= minor /\ 0 <= mn) as [M1 M2].
  { assert (forall t n, denotes t n -> 0 <= n) as Dn by (induction 1; lia).
    assert (0 <= minor) as M1. { destruct version as [s|]; cbn [says] in Sv; [destruct Sv as (t & _ & a & b & _ & _ & Hb); exact (Dn _ _ Hb)|]. injection Sv as -> ->. lia. }
    split; [exact M1|]. destruct part as [s|]; cbn [says] in Sm; [destruct Sm as (t & _ & a & b & _ & _ & Hb); exact (Dn _ _ Hb)|]. injection Sm as -> ->. exact M1. }
  assert (((2 <? major) || ((major =? 2) && (0 <? minor))) = false <-> not_later (major, minor) (2, 0)) as E.
  { unfold not_later. cbn [fst snd]. rewrite orb_false_iff, andb_false_iff, !Z.ltb_ge, Z.eqb_neq. lia. }
  destruct ((2 <? major) || ((major =? 2) && (0 <? minor))).
  - split; [split; [intros _ X; apply E in X; discriminate|reflexivity]|]. intros X. apply E in X. discriminate.
  - assert (not_later (major, minor) (2, 0)) as L by (now apply E). split.
    + split; [destruct (2 <=? mj); discriminate|contradiction].
    + intros _. destruct (2 <=? mj) eqn:F; [apply Z.leb_le in F|apply Z.leb_gt in F]; eexists; (split; [reflexivity|]); [left|right]; (split; [reflexivity|]); unfold not_later; cbn [fst snd]; lia.
Qed.
(** A request is answered by 500 just if one of the headers is there and its value is no version *)
Definition malformed (value : option str) : Prop :=
  exists s, value = Some s /\ forall t v, token s = Some t -> ~ version_text t v.
Lemma malformed_spec s : version_of token s = None <-> malformed (Some s).
Proof.
  split.
  - intros N. exists s. split; [reflexivity|]. intros t v T V. assert (version_of token s = Some v) as X by (apply version_spec; eauto). congruence.
  - intros (s' & [= <-] & H). destruct (version_of token s) as [v|] eqn:E; [|reflexivity]. apply version_spec in E. destruct E as (t & T & V). destruct (H t v T V).
Qed.
Theorem C259_malformed : forall version maxVersion part, before_semicolon maxVersion part ->
  (Negotiate token version maxVersion = Unexpected <-> malformed version \/ malformed part).
Proof.
  intros version maxVersion part P. unfold Negotiate.
  assert (forall d, match version with Some s => ParseDataServiceVersion token s | None => Some d end = None <-> malformed version) as V.
  { intros d. destruct version as [s|]; [apply malformed_spec|]. split; [discriminate|intros (s & X & _); discriminate]. }
  assert (forall d, match maxVersion with Some s => ParseMaxDataServiceVersion token s | None => Some d end = None <-> malformed part) as M.
  { intros d. destruct maxVersion as [s|], part as [p|]; try contradiction; [|split; [discriminate|intros (s & X & _); discriminate]].
    rewrite <- malformed_spec. destruct P as [Np P]. unfold ParseMaxDataServiceVersion, split. destruct P as [-> |[r ->]].
    - now rewrite split_at_none.
    - now rewrite split_at_some. }
  specialize (V (2, 0)). destruct (match version with Some s => ParseDataServiceVersion token s | None => Some (2, 0) end) as [[major minor]|]; [|tauto].
  specialize (M (major, minor)). destruct (match maxVersion with Some s => ParseMaxDataServiceVersion token s | None => Some (major, minor) end) as [[mj mn]|].
  - split; [|intros [X|X]; [apply V in X|apply M in X]; discriminate]. destruct (_ || _); [discriminate|]. destruct (2 <=? mj); discriminate.
  - tauto.
Qed.
End Negotiation.
(** Every request is handled, in a version that is not later than the greatest allowed, or refused
    as a mismatch *)
Definition C259_all : Prop := forall token version maxVersion,
  Negotiate token version maxVersion <> Unexpected /\
  (forall major s m, Negotiate token version maxVersion = Handled major -> maxVersion = Some s ->
     ParseMaxDataServiceVersion token s = Some m -> not_later (major, 0) m).
Theorem C259_refuted : ~ C259_all /\
  (forall maxVersion, Negotiate (fun s => Some s) (Some (lit "two")) maxVersion = Unexpected) /\
  Negotiate (fun s => Some s) None (Some (lit "0.9")) = Handled 1.
Proof.
  split; [|split; [reflexivity|reflexivity]]. intros H. destruct (H (fun s => Some s) (Some (lit "two")) None) as [X _]. now apply X.
Qed.
Example C259_case :
  says (fun s => Some s) (Some (lit "1.0")) (2, 0) (1, 0) /\ before_semicolon (Some (lit "2.0;x")) (Some (lit "2.0")) /\
  Negotiate (fun s => Some s) (Some (lit "1.0")) (Some (lit "2.0;x")) = Handled 2 /\
  Negotiate (fun s => Some s) (Some (lit "2.1")) None = Mismatch /\ Negotiate (fun s => Some s) (Some (lit "1.0")) None = Handled 1.
Proof.
  split.
  - exists (lit "1.0"). split; [reflexivity|]. exists (lit "1"), (lit "0"). split; [reflexivity|]. split; apply denotes_spec; vm_compute; auto.
  - split; [|vm_compute; auto]. cbn [before_semicolon]. split; [|right; exists (lit "x"); reflexivity]. vm_compute. intuition discriminate.
Qed.
Print Assumptions C259_partial.
Print Assumptions C259_malformed.
Print Assumptions C259_refuted.
