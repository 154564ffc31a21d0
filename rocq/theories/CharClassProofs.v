From Verif Require Import Py CharClass CharClassSpec.

Ltac Zify.zify_convert_to_euclidean_division_equations_flag ::= constr:(true).

(** ** List plumbing *)

Lemma firstn_exact {A} (l1 l2 : list A) : firstn (length l1) (l1 ++ l2) = l1.
Proof. induction l1; cbn; congruence. Qed.

Lemma skipn_exact {A} (l1 l2 : list A) : skipn (length l1) (l1 ++ l2) = l2.
Proof. induction l1; cbn; auto. Qed.

Lemma splice_app {A} (l1 mid l3 m : list A) i j :
  i = length l1 -> j = (length l1 + length mid)%nat ->
  splice (l1 ++ mid ++ l3) i j m = l1 ++ m ++ l3.
Proof.
  intros -> ->. unfold splice. rewrite firstn_exact.
  replace (Nat.max (length l1) (length l1 + length mid)) with (length (l1 ++ mid))
    by (rewrite app_length; lia).
  rewrite (app_assoc l1 mid l3), skipn_exact. reflexivity.
Qed.

Lemma index_app {A} (l1 l2 : list A) x i :
  i = length l1 -> index (l1 ++ x :: l2) i = Ok x.
Proof.
  intros ->. unfold index. rewrite nth_error_app2 by lia.
  rewrite Nat.sub_diag. reflexivity.
Qed.

Lemma set_nth_app {A} (l1 l2 : list A) x y i :
  i = length l1 -> set_nth (l1 ++ x :: l2) i y = Ok (l1 ++ y :: l2).
Proof.
  intros ->. unfold set_nth. rewrite app_length. cbn [length].
  destruct (Nat.ltb_spec (length l1) (length l1 + S (length l2))); [|lia].
  rewrite firstn_exact.
  replace (S (length l1)) with (length (l1 ++ [x])) by (rewrite app_length; cbn; lia).
  replace (l1 ++ x :: l2) with ((l1 ++ [x]) ++ l2) by (rewrite <- app_assoc; reflexivity).
  rewrite skipn_exact. reflexivity.
Qed.

Lemma insert_at_app {A} (l1 l2 : list A) x i :
  i = length l1 -> insert_at (l1 ++ l2) i x = l1 ++ x :: l2.
Proof. intros ->. unfold insert_at. rewrite firstn_exact, skipn_exact. reflexivity. Qed.

Ltac lsolve :=
  repeat match goal with H : ?x = _ |- ?x = _ => is_var x; rewrite H; clear H end;
  repeat (rewrite <- app_assoc || cbn [app]); rewrite ?app_nil_r; reflexivity.
Ltac llen := repeat (rewrite app_length || cbn [length] in * ); lia.

Lemma splice_eq {A} (rs l1 mid l3 m : list A) i j :
  rs = l1 ++ mid ++ l3 -> i = length l1 -> j = (length l1 + length mid)%nat ->
  splice rs i j m = l1 ++ m ++ l3.
Proof. intros ->. apply splice_app. Qed.

Lemma index_eq {A} (rs l1 l2 : list A) x i :
  rs = l1 ++ x :: l2 -> i = length l1 -> index rs i = Ok x.
Proof. intros ->. apply index_app. Qed.

Lemma set_nth_eq {A} (rs l1 l2 : list A) x y i :
  rs = l1 ++ x :: l2 -> i = length l1 -> set_nth rs i y = Ok (l1 ++ y :: l2).
Proof. intros ->. apply set_nth_app. Qed.

Lemma insert_at_eq {A} (rs l1 l2 : list A) x i :
  rs = l1 ++ l2 -> i = length l1 -> insert_at rs i x = l1 ++ x :: l2.
Proof. intros ->. apply insert_at_app. Qed.

Lemma app_split {A} (l1 l2 k1 k2 : list A) :
  l1 ++ l2 = k1 ++ k2 -> (length l1 <= length k1)%nat ->
  exists mid, k1 = l1 ++ mid /\ l2 = mid ++ k2.
Proof.
  revert k1; induction l1 as [|x l1 IH]; intros k1 H Hl; cbn in *.
  - exists k1; auto.
  - destruct k1 as [|y k1]; cbn in *; [lia|]. injection H as -> H.
    destruct (IH k1 H) as (mid & -> & ->); [lia|]. exists mid; auto.
Qed.

Lemma nth_error_in_split {A} (l : list A) i x :
  nth_error l i = Some x -> exists l1 l2, l = l1 ++ x :: l2 /\ length l1 = i.
Proof. intros H. apply nth_error_split in H as (l1 & l2 & -> & <-). eauto. Qed.

(** ** Sortedness *)

Section Proofs.
Variable M : Z.

Definition valid (r : range) : Prop := 0 <= fst r /\ fst r <= snd r /\ snd r <= M.

Fixpoint srt (rs : cc) : Prop :=
  match rs with
  | [] => True
  | r :: t => valid r /\ (forall x, In x t -> snd r < fst x) /\ srt t
  end.

Lemma srt_app l1 l2 :
  srt (l1 ++ l2) <-> srt l1 /\ srt l2 /\ (forall x y, In x l1 -> In y l2 -> snd x < fst y).
Proof.
  induction l1 as [|r l1 IH]; cbn [app srt].
  - split; [intros H|tauto]. repeat split; auto. intros x y [].
  - rewrite IH. clear IH. split.
    + intros (Hv & Hr & H1 & H2 & H12). repeat split; auto; try apply Hv.
      * intros x Hx. apply Hr. apply in_app_iff; auto.
      * intros x y [<-|Hx] Hy; [apply Hr; apply in_app_iff; auto|auto].
    + intros ((Hv & Hr & H1) & H2 & H12). repeat split; auto; try apply Hv.
      * intros x Hx. apply in_app_iff in Hx as [Hx|Hx]; [auto|apply H12; [left|]; auto].
      * intros x y Hx Hy. apply H12; [right|]; auto.
Qed.

Lemma srt_valid rs r : srt rs -> In r rs -> valid r.
Proof.
  induction rs as [|x rs IH]; cbn; [tauto|]. intros (Hv & _ & Hs) [<-|Hi]; auto.
Qed.

Lemma srt_ranges_ok rs : srt rs <-> ranges_ok M rs.
Proof.
  unfold ranges_ok. split.
  - intros H. split.
    + intros i a z Hn. apply nth_error_In in Hn. apply (srt_valid _ _ H Hn).
    + intros i j a z b y Hij Hi Hj.
      apply nth_error_in_split in Hi as (l1 & l2 & -> & <-).
      apply srt_app in H as (_ & H & _). cbn [srt] in H. destruct H as (_ & H & _).
      rewrite nth_error_app2 in Hj by lia.
      destruct (j - length l1)%nat as [|k] eqn:Hk; [lia|]. cbn in Hj.
      apply nth_error_In in Hj. apply H in Hj. exact Hj.
  - induction rs as [|r rs IH]; [cbn; auto|]. intros (Hv & Ho). cbn [srt]. repeat split.
    + destruct r as [a z]. apply (Hv 0%nat a z eq_refl).
    + destruct r as [a z]. apply (Hv 0%nat a z eq_refl).
    + destruct r as [a z]. apply (Hv 0%nat a z eq_refl).
    + intros x Hx. apply In_nth_error in Hx as [n Hn]. destruct r as [a z], x as [b y].
      apply (Ho 0%nat (S n) a z b y); [lia|reflexivity|exact Hn].
    + apply IH. split.
      * intros i a z Hn. apply (Hv (S i)); exact Hn.
      * intros i j a z b y Hij Hi Hj. apply (Ho (S i) (S j) a z b y); [lia|exact Hi|exact Hj].
Qed.

(** ** Bisection *)

(** What the search result means, in terms of a split of the list. *)
Definition found (rs : cc) (c : Z) (b : bool) (i : nat) : Prop :=
  exists l1 l2, rs = l1 ++ l2 /\ length l1 = i /\
    (forall r, In r l1 -> snd r < c) /\
    (if b then exists lo hi l3, l2 = (lo, hi) :: l3 /\ lo <= c <= hi
     else forall r, In r l2 -> c < fst r).

Lemma bisect_fuel_spec fuel rs c rmin rmax :
  srt rs -> (rmin <= rmax)%nat -> (rmax < length rs)%nat -> (rmax - rmin < fuel)%nat ->
  (forall i r, (i < rmin)%nat -> nth_error rs i = Some r -> snd r < c) ->
  (forall i r, (rmax < i)%nat -> nth_error rs i = Some r -> c < fst r) ->
  exists b i, bisect_fuel fuel rs c rmin rmax = Ok (b, i) /\ found rs c b i.
Proof.
  intros Hs. revert rmin rmax.
  induction fuel as [|fuel IH]; intros rmin rmax Hle Hlt Hf Hlo Hhi; [lia|].
  cbn [bisect_fuel].
  destruct (Nat.eqb_spec rmin rmax) as [Heq|Hne].
  - subst rmax.
    destruct (nth_error rs rmin) as [[lo hi]|] eqn:Hn.
    2:{ apply nth_error_None in Hn. lia. }
    unfold index. rewrite Hn. cbn [bind].
    destruct (nth_error_in_split _ _ _ Hn) as (l1 & l2 & Hrs & Hl1).
    assert (H1 : forall r, In r l1 -> snd r < c).
    { intros r Hr. apply In_nth_error in Hr as [n Hr]. apply (Hlo n).
      - assert (n < length l1)%nat by (apply nth_error_Some; congruence). lia.
      - subst rs. rewrite nth_error_app1; [exact Hr|]. apply nth_error_Some; congruence. }
    assert (H2 : forall r, In r l2 -> c < fst r).
    { intros r Hr. apply In_nth_error in Hr as [n Hr]. apply (Hhi (S (length l1 + n))); [lia|].
      subst rs. rewrite nth_error_app2 by lia.
      replace (S (length l1 + n) - length l1)%nat with (S n) by lia. exact Hr. }
    destruct (c >? hi) eqn:Hc1.
    + exists false, (S rmin). split; [reflexivity|].
      exists (l1 ++ [(lo, hi)]), l2. subst rs. rewrite <- app_assoc. split; [reflexivity|].
      rewrite app_length. cbn [length]. split; [lia|]. split; [|exact H2].
      intros r Hr. apply in_app_iff in Hr as [Hr|[<-|[]]]; [auto|]. cbn. lia.
    + destruct (c <? lo) eqn:Hc2.
      * exists false, rmin. split; [reflexivity|].
        exists l1, ((lo, hi) :: l2). repeat split; auto.
        intros r [<-|Hr]; [cbn; lia|auto].
      * exists true, rmin. split; [reflexivity|].
        exists l1, ((lo, hi) :: l2). repeat split; auto.
        exists lo, hi, l2. split; [reflexivity|lia].
  - remember (Nat.div (rmin + rmax) 2) as rtry eqn:Ht.
    assert (Hr : (rmin <= rtry < rmax)%nat) by (subst rtry; lia).
    cbv zeta.
    destruct (nth_error rs rtry) as [[lo hi]|] eqn:Hn.
    2:{ apply nth_error_None in Hn. lia. }
    unfold index. rewrite Hn. cbn [bind].
    destruct (c <=? hi) eqn:Hc.
    + apply IH; try lia; [exact Hlo|].
      intros i [a z] Hi Hni. cbn.
      apply srt_ranges_ok in Hs as [_ Hs].
      assert (hi < a) by (apply (Hs rtry i lo hi a z); [lia|exact Hn|exact Hni]). lia.
    + apply IH; try lia; [|exact Hhi].
      intros i [a z] Hi Hni. cbn.
      destruct (Nat.eq_dec i rtry) as [->|Hd]; [assert (z = hi) by congruence; lia|].
      apply srt_ranges_ok in Hs as [Hv Hs].
      assert (z < lo) by (apply (Hs i rtry a z lo hi); [lia|exact Hni|exact Hn]).
      specialize (Hv rtry lo hi Hn). lia.
Qed.

Lemma bisect_spec rs c :
  srt rs -> rs <> [] -> exists b i, bisect rs c = Ok (b, i) /\ found rs c b i.
Proof.
  intros Hs Hne. unfold bisect.
  assert (0 < length rs)%nat by (destruct rs; [congruence|cbn; lia]).
  apply bisect_fuel_spec; auto; try lia.
  intros i r Hi Hn. assert (i < length rs)%nat by (apply nth_error_Some; congruence). lia.
Qed.

(** ** Automation for ordered lists *)

Ltac inst :=
  repeat match goal with
  | H : forall r, In r ?l -> _, H1 : In ?x ?l |- _ =>
      let P := type of (H x H1) in
      match goal with
      | _ : P |- _ => fail 1
      | _ => pose proof (H x H1)
      end
  | H : forall x y, In x ?l -> In y ?k -> _, H1 : In ?x ?l, H2 : In ?y ?k |- _ =>
      let P := type of (H x y H1 H2) in
      match goal with
      | _ : P |- _ => fail 1
      | _ => pose proof (H x y H1 H2)
      end
  end.

Lemma covers_app l1 l2 c : covers (l1 ++ l2) c <-> covers l1 c \/ covers l2 c.
Proof.
  unfold covers. split.
  - intros (a & z & Hi & Hc). apply in_app_iff in Hi as [Hi|Hi]; [left|right]; eauto.
  - intros [(a & z & Hi & Hc)|(a & z & Hi & Hc)]; exists a, z; rewrite in_app_iff; auto.
Qed.

Lemma covers_cons a z l c : covers ((a, z) :: l) c <-> (a <= c <= z) \/ covers l c.
Proof.
  unfold covers. split.
  - intros (b & y & [He|Hi] & Hc); [left; injection He as -> ->; exact Hc|right; eauto].
  - intros [Hc|(b & y & Hi & Hc)]; [exists a, z|exists b, y]; cbn; auto.
Qed.

Lemma covers_nil c : covers [] c <-> False.
Proof. unfold covers. split; [intros (a & z & [] & _)|tauto]. Qed.

Lemma covers_lt l x c : (forall r, In r l -> snd r < x) -> covers l c -> c < x.
Proof. intros H (a & z & Hi & Hc). apply H in Hi. cbn in Hi. lia. Qed.

Lemma covers_gt l x c : (forall r, In r l -> x < fst r) -> covers l c -> x < c.
Proof. intros H (a & z & Hi & Hc). apply H in Hi. cbn in Hi. lia. Qed.

Definition coversb (l : cc) (c : Z) : bool :=
  existsb (fun r => (fst r <=? c) && (c <=? snd r)) l.

Lemma coversb_spec l c : covers l c <-> coversb l c = true.
Proof.
  unfold covers, coversb. rewrite existsb_exists. split.
  - intros (a & z & Hi & Hc). exists (a, z). cbn. split; [exact Hi|lia].
  - intros ([a z] & Hi & Hc). cbn in Hc. exists a, z. split; [exact Hi|lia].
Qed.

Ltac clia := rewrite ?coversb_spec in *; lia.

Lemma srt_cons r l : srt (r :: l) <-> valid r /\ (forall x, In x l -> snd r < fst x) /\ srt l.
Proof. reflexivity. Qed.

(** Bounds implied for the parts of a sorted list around a given range. *)
Lemma srt_mid l1 a z l2 :
  srt (l1 ++ (a, z) :: l2) <->
  srt l1 /\ srt l2 /\ (0 <= a /\ a <= z /\ z <= M) /\
  (forall r, In r l1 -> snd r < a) /\ (forall r, In r l2 -> z < fst r).
Proof.
  rewrite srt_app, srt_cons. unfold valid. cbn [fst snd]. split.
  - intros (H1 & (Hv & H2 & H3) & H12). repeat split; try tauto.
    intros r Hr. apply (H12 r (a, z) Hr). left; reflexivity.
  - intros (H1 & H2 & Hv & Ha & Hz). repeat split; try tauto.
    intros x y Hx [<-|Hy]; [apply Ha; exact Hx|].
    apply Ha in Hx. apply Hz in Hy. lia.
Qed.

(** ** Merge *)

Lemma merge_spec l1 a z l2 i :
  i = length l1 -> srt (l1 ++ (a, z) :: l2) ->
  exists rs', merge (l1 ++ (a, z) :: l2) i = Ok rs' /\ srt rs' /\
    (forall c, covers rs' c <-> covers (l1 ++ (a, z) :: l2) c).
Proof.
  intros -> Hs. unfold merge. rewrite index_app by reflexivity. cbn [bind].
  destruct (Nat.ltb_spec 0 (length l1)) as [H0|H0].
  - destruct (exists_last (l := l1)) as (l1' & [p q] & ->).
    { destruct l1; [cbn in H0; lia|congruence]. }
    rewrite app_length in *. cbn [length] in *.
    replace (length l1' + 1 - 1)%nat with (length l1') by lia.
    rewrite <- app_assoc in *. cbn [app] in *.
    rewrite index_app by reflexivity. cbn [bind].
    destruct (q >=? a - 1) eqn:Hq; cbn [bind].
    + destruct (Nat.eqb_spec (length l1') (length l1' + 1)); [lia|].
      rewrite index_app by reflexivity. cbn [bind].
      assert (Hix : index (l1' ++ (p, q) :: (a, z) :: l2) (length l1' + 1) = Ok (a, z)).
      { replace (l1' ++ (p, q) :: (a, z) :: l2) with ((l1' ++ [(p, q)]) ++ (a, z) :: l2)
          by (rewrite <- app_assoc; reflexivity).
        apply index_app. rewrite app_length. reflexivity. }
      rewrite Hix. cbn [bind].
      eexists; split; [reflexivity|].
      change (l1' ++ (p, q) :: (a, z) :: l2) with (l1' ++ [(p, q); (a, z)] ++ l2).
      rewrite splice_app by (cbn [length]; lia). cbn [app].
      apply srt_mid in Hs as (H1 & H2 & Hv & Hlt & Hgt).
      change ((a, z) :: l2) with ([] ++ (a, z) :: l2) in H2.
      apply srt_mid in H2 as (_ & H2 & Hv2 & _ & Hgt2).
      assert (q < a) by (apply (Hgt (a, z)); left; reflexivity).
      split.
      * apply srt_mid. repeat split; try tauto; try lia. 
      * intros c. rewrite !covers_app, !covers_cons. intuition lia.
    + destruct (Nat.eqb_spec (length l1' + 1) (length l1' + 1)); [|lia].
      eexists; split; [reflexivity|]. split; [exact Hs|tauto].
  - destruct l1 as [|? ?]; [|cbn in H0; lia]. cbn [app length] in *.
    destruct l2 as [|[b y] l2]; cbn [length].
    + cbn [Nat.ltb Nat.leb Nat.sub bind Nat.eqb]. eexists; split; [reflexivity|]. split; [exact Hs|tauto].
    + replace (Nat.ltb 0 (S (S (length l2)) - 1)) with true by (symmetry; apply Nat.ltb_lt; lia).
      cbn [index nth_error Nat.add bind].
      destruct (b <=? z + 1) eqn:Hb; cbn [bind Nat.eqb].
      * cbn [index nth_error bind]. eexists; split; [reflexivity|].
        unfold splice. cbn [firstn skipn Nat.max app].
        change ((a, z) :: (b, y) :: l2) with ([] ++ (a, z) :: (b, y) :: l2) in Hs.
        apply srt_mid in Hs as (_ & Hs & Hv & _ & Hgt).
        change ((b, y) :: l2) with ([] ++ (b, y) :: l2) in Hs.
        apply srt_mid in Hs as (_ & Hs & Hv2 & _ & Hgt2).
        assert (z < b) by (apply (Hgt (b, y)); left; reflexivity).
        split.
        -- change ((a, y) :: l2) with ([] ++ (a, y) :: l2). apply srt_mid.
           repeat split; try tauto; try lia. intros r [].
        -- intros c. rewrite !covers_cons. intuition lia.
      * eexists; split; [reflexivity|]. split; [exact Hs|tauto].
Qed.

(** ** Two searches *)

Lemma found_pair rs a z ba ia bz iz :
  srt rs -> a <= z -> found rs a ba ia -> found rs z bz iz ->
  exists l1 mid k2, rs = l1 ++ mid ++ k2 /\ length l1 = ia /\ (length l1 + length mid)%nat = iz /\
    (forall r, In r l1 -> snd r < a) /\
    (forall r, In r mid -> snd r < z) /\
    (if ba then exists lo hi l3, mid ++ k2 = (lo, hi) :: l3 /\ lo <= a <= hi
     else forall r, In r (mid ++ k2) -> a < fst r) /\
    (if bz then exists lo hi l3, k2 = (lo, hi) :: l3 /\ lo <= z <= hi
     else forall r, In r k2 -> z < fst r).
Proof.
  intros Hs Haz (l1 & l2 & H1 & H2 & H3 & H4) (k1 & k2 & K1 & K2 & K3 & K4).
  assert (Hle : (length l1 <= length k1)%nat).
  { destruct (Nat.le_gt_cases (length l1) (length k1)) as [|Hgt]; [assumption|exfalso].
    destruct (app_split k1 k2 l1 l2) as (mid & Hm1 & Hm2); [congruence|lia|].
    destruct mid as [|r mid].
    { rewrite app_nil_r in Hm1. subst k1. lia. }
    assert (Hr : snd r < a).
    { apply H3. rewrite Hm1. apply in_app_iff. right; left; reflexivity. }
    assert (Hv : valid r).
    { apply (srt_valid rs); [exact Hs|]. rewrite H1, Hm1, <- app_assoc. apply in_app_iff.
      right; left; reflexivity. }
    unfold valid in Hv.
    destruct bz.
    - destruct K4 as (lo & hi & l3 & Hk2 & Hc). rewrite Hm2 in Hk2. cbn in Hk2.
      injection Hk2 as -> _. cbn in *. lia.
    - assert (z < fst r) by (apply K4; rewrite Hm2; left; reflexivity). lia. }
  destruct (app_split l1 l2 k1 k2) as (mid & Hm1 & Hm2); [congruence|lia|].
  exists l1, mid, k2. subst l2 k1. repeat split; auto.
  - rewrite app_length in K2. exact K2.
  - intros r Hr. apply K3. apply in_app_iff; auto.
Qed.

Definition norm (a0 z0 : Z) : Z * Z := if z0 <? a0 then (z0, a0) else (a0, z0).

(** Solves the set-theoretic goals left after decomposition. *)
Ltac bounds c :=
  repeat match goal with
  | H : forall r, In r ?l -> snd r < ?x |- context [covers ?l c] =>
      let P := constr:(covers l c -> c < x) in
      match goal with
      | _ : P |- _ => fail 1
      | _ => pose proof (covers_lt l x c H)
      end
  | H : forall r, In r ?l -> ?x < fst r |- context [covers ?l c] =>
      let P := constr:(covers l c -> x < c) in
      match goal with
      | _ : P |- _ => fail 1
      | _ => pose proof (covers_gt l x c H)
      end
  end.

Ltac sets := unfold union, diff; intuition lia.

Lemma Forall_lt_trans (l : cc) x y :
  (forall r, In r l -> snd r < x) -> x <= y -> (forall r, In r l -> snd r < y).
Proof. intros H Hxy r Hr. apply H in Hr. lia. Qed.

Lemma Forall_gt_trans (l : cc) x y :
  (forall r, In r l -> x < fst r) -> y <= x -> (forall r, In r l -> y < fst r).
Proof. intros H Hxy r Hr. apply H in Hr. lia. Qed.

Lemma Forall_gt_app (l1 l2 : cc) x :
  (forall r, In r (l1 ++ l2) -> x < fst r) ->
  (forall r, In r l1 -> x < fst r) /\ (forall r, In r l2 -> x < fst r).
Proof. intros H; split; intros r Hr; apply H, in_app_iff; auto. Qed.


Lemma unichr_ok n : 0 <= n <= M -> unichr M n = Ok n.
Proof. intros H. unfold unichr. replace ((0 <=? n) && (n <=? M)) with true by lia. reflexivity. Qed.

(** Common start of AddRange and SubtractRange on a non-empty class. *)
Lemma norm_spec a0 z0 : 0 <= a0 <= M -> 0 <= z0 <= M ->
  exists a z, (if z0 <? a0 then (z0, a0) else (a0, z0)) = (a, z) /\
    a <= z /\ 0 <= a /\ z <= M /\ Z.min a0 z0 = a /\ Z.max a0 z0 = z.
Proof.
  intros. destruct (z0 <? a0) eqn:E; [exists z0, a0|exists a0, z0]; repeat split; lia.
Qed.

Ltac norm_list := repeat (rewrite <- app_assoc in * || cbn [app] in * ).
Ltac cov := rewrite ?covers_app, ?covers_cons, ?covers_app, ?covers_cons, ?covers_app,
  ?covers_cons, ?covers_nil.
Ltac okdone c := eexists; split; [reflexivity|]; split;
  [|intros c; unfold union, diff; cov; bounds c; clia].
Ltac split5 := refine (conj _ (conj _ (conj _ (conj _ _)))).
Ltac ssort := apply srt_mid; split5; try assumption; try lia.

Lemma add_range_spec rs a0 z0 :
  srt rs -> 0 <= a0 <= M -> 0 <= z0 <= M ->
  exists rs', add_range rs a0 z0 = Ok rs' /\ srt rs' /\
    forall c, covers rs' c <-> union (covers rs) (between a0 z0) c.
Proof.
  intros Hs Ha0 Hz0. unfold add_range, between.
  destruct (norm_spec a0 z0 Ha0 Hz0) as (a & z & -> & Hle & Ha & Hz & -> & ->).
  clear Ha0 Hz0 a0 z0.
  destruct rs as [|r0 rs0] eqn:Hrs.
  - eexists; split; [reflexivity|]. split.
    + change [(a, z)] with ([] ++ (a, z) :: []). apply srt_mid.
      repeat split; cbn; try lia; tauto.
    + intros c. rewrite covers_cons. unfold union. rewrite covers_nil. tauto.
  - rewrite <- Hrs in *. assert (Hne : rs <> []) by (rewrite Hrs; discriminate).
    clear Hrs.
    destruct (bisect_spec rs a Hs Hne) as (ba & ia & -> & Fa).
    destruct (bisect_spec rs z Hs Hne) as (bz & iz & -> & Fz). cbn [bind].
    destruct (found_pair rs a z ba ia bz iz Hs Hle Fa Fz)
      as (l1 & mid & k2 & Hd & Hia & Hiz & Hl1 & Hmid & HA & HZ).
    clear Fa Fz Hne.
    destruct ba, bz.
    + destruct HA as (loa & hia & la & Hea & Hca), HZ as (loz & hiz & k3 & -> & Hcz).
      destruct (Nat.eqb_spec ia iz) as [Hii|Hii].
      * assert (mid = []) by (destruct mid; [reflexivity|cbn in Hiz; lia]). subst mid.
        cbn in Hea. injection Hea as -> -> ->.
        eexists; split; [reflexivity|]. split; [exact Hs|].
        intros c. subst rs. cbn [app]. unfold union. rewrite !covers_app, !covers_cons.
        intuition lia.
      * destruct mid as [|r mid]; [cbn in Hiz; lia|]. cbn in Hea.
        injection Hea as -> Hla. clear Hla.
        rewrite (index_eq rs l1 (mid ++ (loz, hiz) :: k3) (loa, hia)) by (lsolve || llen).
        cbn [bind].
        rewrite (index_eq rs (l1 ++ (loa, hia) :: mid) k3 (loz, hiz)) by (lsolve || llen).
        cbn [bind].
        rewrite (splice_eq rs l1 ((loa, hia) :: mid ++ [(loz, hiz)]) k3) by (lsolve || llen).
        subst rs. norm_list.
        apply srt_mid in Hs as (S1 & S2 & V & B1 & B2).
        apply Forall_gt_app in B2 as [B2 B3].
        apply srt_mid in S2 as (S2 & S3 & V3 & B4 & B5).
        destruct (merge_spec l1 loa hiz k3 ia) as (rs' & -> & Hs' & Hc'); [auto| |].
        { ssort. }
        eexists; split; [reflexivity|]. split; [exact Hs'|].
        assert (hia < z) by (apply (Hmid (loa, hia)); left; reflexivity).
        assert (hia < loz) by (apply (B3 (loz, hiz)); left; reflexivity).
        assert (Hm2 : forall r, In r mid -> snd r < z)
          by (intros r Hr; apply Hmid; right; exact Hr).
        intros c. rewrite Hc'. unfold union. cov. bounds c. clia.
    + destruct HA as (loa & hia & la & Hea & Hca).
      destruct mid as [|r mid].
      { cbn in Hea. subst k2. exfalso.
        assert (z < fst (loa, hia)) by (apply HZ; left; reflexivity). cbn in *. lia. }
      cbn in Hea. injection Hea as -> Hla. clear Hla.
      rewrite (index_eq rs l1 (mid ++ k2) (loa, hia)) by (lsolve || llen). cbn [bind].
      rewrite (splice_eq rs l1 ((loa, hia) :: mid) k2) by (lsolve || llen).
      subst rs. norm_list.
      apply srt_mid in Hs as (S1 & S2 & V & B1 & B2).
      apply Forall_gt_app in B2 as [B2 B3].
      apply srt_app in S2 as (S2 & S3 & _).
      destruct (merge_spec l1 loa z k2 ia) as (rs' & -> & Hs' & Hc'); [auto| |].
      { ssort. }
      eexists; split; [reflexivity|]. split; [exact Hs'|].
      intros c. rewrite Hc'. unfold union.
      assert (hia < z) by (apply (Hmid (loa, hia)); left; reflexivity).
      assert (Hm2 : forall r, In r mid -> snd r < z) by (intros r Hr; apply Hmid; right; exact Hr).
      cov. bounds c. clia.
    + destruct HZ as (loz & hiz & k3 & -> & Hcz).
      apply Forall_gt_app in HA as [HA1 HA2].
      assert (a < loz) by (apply (HA2 (loz, hiz)); left; reflexivity).
      rewrite (index_eq rs (l1 ++ mid) k3 (loz, hiz)) by (lsolve || llen). cbn [bind].
      rewrite (splice_eq rs l1 (mid ++ [(loz, hiz)]) k3) by (lsolve || llen).
      subst rs. norm_list.
      apply srt_app in Hs as (S1 & S2 & _).
      apply srt_mid in S2 as (S2 & S3 & V3 & B4 & B5).
      destruct (merge_spec l1 a hiz k3 ia) as (rs' & -> & Hs' & Hc'); [auto| |].
      { ssort. }
      eexists; split; [reflexivity|]. split; [exact Hs'|].
      intros c. rewrite Hc'. unfold union. cov. bounds c. clia.
    + apply Forall_gt_app in HA as [HA1 HA2].
      rewrite (splice_eq rs l1 mid k2) by (lsolve || llen).
      subst rs. norm_list.
      apply srt_app in Hs as (S1 & S2 & _). apply srt_app in S2 as (S2 & S3 & _).
      destruct (merge_spec l1 a z k2 ia) as (rs' & -> & Hs' & Hc'); [auto| |].
      { ssort. }
      eexists; split; [reflexivity|]. split; [exact Hs'|].
      intros c. rewrite Hc'. unfold union. cov. bounds c. clia.
Qed.

Lemma add_char_spec rs c0 :
  srt rs -> 0 <= c0 <= M ->
  exists rs', add_char rs c0 = Ok rs' /\ srt rs' /\
    forall c, covers rs' c <-> union (covers rs) (between c0 c0) c.
Proof.
  intros Hs Hc0. unfold add_char, between. rewrite Z.min_id, Z.max_id.
  destruct rs as [|r0 rs0] eqn:Hrs.
  - eexists; split; [reflexivity|]. split.
    + change [(c0, c0)] with ([] ++ (c0, c0) :: []). apply srt_mid.
      repeat split; cbn; try lia; tauto.
    + intros c. rewrite covers_cons. unfold union. rewrite covers_nil. tauto.
  - rewrite <- Hrs in *. assert (Hne : rs <> []) by (rewrite Hrs; discriminate).
    clear Hrs.
    destruct (bisect_spec rs c0 Hs Hne) as (b & i & -> & l1 & l2 & Hd & Hi & Hl1 & Hb).
    cbn [bind]. destruct b.
    + destruct Hb as (lo & hi & l3 & -> & Hc).
      eexists; split; [reflexivity|]. split; [exact Hs|].
      intros c. subst rs. unfold union. cov. intuition lia.
    + rewrite (insert_at_eq rs l1 l2) by (lsolve || llen).
      subst rs. apply srt_app in Hs as (S1 & S2 & _).
      destruct (merge_spec l1 c0 c0 l2 i) as (rs' & -> & Hs' & Hc'); [auto|ssort|].
      eexists; split; [reflexivity|]. split; [exact Hs'|].
      intros c. rewrite Hc'. unfold union. cov. bounds c. clia.
Qed.

Ltac sdone := eexists; split; [reflexivity|]; split.

Lemma sub_range_spec rs a0 z0 :
  srt rs -> 0 <= a0 <= M -> 0 <= z0 <= M ->
  exists rs', sub_range M rs a0 z0 = Ok rs' /\ srt rs' /\
    forall c, covers rs' c <-> diff (covers rs) (between a0 z0) c.
Proof.
  intros Hs Ha0 Hz0. unfold sub_range, between.
  destruct (norm_spec a0 z0 Ha0 Hz0) as (a & z & -> & Hle & Ha & Hz & -> & ->).
  clear Ha0 Hz0 a0 z0.
  destruct rs as [|r0 rs0] eqn:Hrs.
  - eexists; split; [reflexivity|]. split; [exact I|].
    intros c. unfold diff. rewrite covers_nil. tauto.
  - rewrite <- Hrs in *. assert (Hne : rs <> []) by (rewrite Hrs; discriminate).
    clear Hrs.
    destruct (bisect_spec rs a Hs Hne) as (ba & ia & -> & Fa).
    destruct (bisect_spec rs z Hs Hne) as (bz & iz & -> & Fz). cbn [bind].
    destruct (found_pair rs a z ba ia bz iz Hs Hle Fa Fz)
      as (l1 & mid & k2 & Hd & Hia & Hiz & Hl1 & Hmid & HA & HZ).
    clear Fa Fz Hne r0 rs0.
    destruct ba, bz.
    + destruct HA as (loa & hia & la & Hea & Hca), HZ as (loz & hiz & k3 & -> & Hcz).
      destruct (Nat.eqb_spec ia iz) as [Hii|Hii].
      * assert (mid = []) by (destruct mid; [reflexivity|cbn in Hiz; lia]). subst mid.
        cbn in Hea. injection Hea as -> -> ->. cbn [app] in Hd.
        rewrite (index_eq rs l1 la (loa, hia)) by (lsolve || llen). cbn [bind].
        destruct ((loa =? hia) || ((loa =? a) && (hia =? z))) eqn:E1.
        { rewrite (splice_eq rs l1 [(loa, hia)] la) by (lsolve || llen).
          subst rs. norm_list. pose proof Hs as Hs0. apply srt_mid in Hs0 as (S1 & S2 & V & B1 & B2).
          sdone.
          - apply srt_app. repeat split; auto. intros x y Hx Hy.
            apply B1 in Hx; apply B2 in Hy; lia.
          - intros c. unfold diff. cov. bounds c. clia. }
        destruct (loa =? a) eqn:E2.
        { pose proof (srt_valid rs (loa, hia) Hs) as Hv.
          rewrite unichr_ok.
          2:{ assert (In (loa, hia) rs) by (rewrite Hd; apply in_app_iff; right; left; reflexivity).
              unfold valid in Hv. cbn in Hv. lia. }
          cbn [bind].
          rewrite (set_nth_eq rs l1 la (loa, hia)) by (lsolve || llen).
          subst rs. apply srt_mid in Hs as (S1 & S2 & V & B1 & B2).
          sdone.
          - ssort. all: try (apply (Forall_lt_trans _ loa); [exact B1|lia]).
          - intros c. unfold diff. cov. bounds c. clia. }
        destruct (hia =? z) eqn:E3.
        { rewrite unichr_ok by (apply srt_valid with (r := (loa, hia)) in Hs;
            [unfold valid in Hs; cbn in Hs; lia
            |rewrite Hd; apply in_app_iff; right; left; reflexivity]).
          cbn [bind].
          rewrite (set_nth_eq rs l1 la (loa, hia)) by (lsolve || llen).
          subst rs. apply srt_mid in Hs as (S1 & S2 & V & B1 & B2).
          sdone.
          - ssort. all: try (apply (Forall_gt_trans _ hia); [exact B2|lia]).
          - intros c. unfold diff. cov. bounds c. clia. }
        { assert (Hv : valid (loa, hia)).
          { apply (srt_valid rs); [exact Hs|]. rewrite Hd. apply in_app_iff; right; left; reflexivity. }
          unfold valid in Hv. cbn [fst snd] in Hv.
          rewrite unichr_ok by lia. cbn [bind].
          rewrite (set_nth_eq rs l1 la (loa, hia)) by (lsolve || llen). cbn [bind].
          rewrite unichr_ok by lia. cbn [bind].
          rewrite (insert_at_eq _ (l1 ++ [(loa, a - 1)]) la) by (lsolve || llen).
          subst rs. norm_list. apply srt_mid in Hs as (S1 & S2 & V & B1 & B2).
          sdone.
          - ssort.
            + change ((z + 1, hia) :: la) with ([] ++ (z + 1, hia) :: la).
              ssort; cbn; tauto.
            + intros r [<-|Hr]; [cbn; lia|]. apply B2 in Hr. lia.
          - intros c. unfold diff. cov. bounds c. clia. }
      * destruct mid as [|r mid]; [cbn in Hiz; lia|]. cbn in Hea.
        injection Hea as -> Hla. clear Hla la.
        assert (Hs0 := Hs). rewrite Hd in Hs0. cbn [app] in Hs0.
        apply srt_mid in Hs0 as (S1 & S2 & V & B1 & B2).
        apply Forall_gt_app in B2 as [B2 B3].
        apply srt_mid in S2 as (S2 & S3 & V3 & B4 & B5).
        assert (hia < loz) by (apply (B3 (loz, hiz)); left; reflexivity).
        assert (Hm2 : forall r, In r mid -> snd r < z)
          by (intros r Hr; apply Hmid; right; exact Hr).
        rewrite (index_eq rs l1 (mid ++ (loz, hiz) :: k3) (loa, hia)) by (lsolve || llen).
        cbn [bind].
        (* the trimmed list on the left *)
        assert (HL : exists rs1 l1' m1 snipA,
          (if (loa =? hia) || (a =? loa) then Ok (rs, ia)
           else a1 <- unichr M (a - 1) ;;
                rs1 <- set_nth rs ia (loa, a1) ;; Ok (rs1, S ia)) = Ok (rs1, snipA) /\
          rs1 = l1' ++ m1 ++ mid ++ (loz, hiz) :: k3 /\ snipA = length l1' /\
          (length l1' + length m1 = S (length l1))%nat /\
          srt l1' /\ (forall r, In r l1' -> snd r < a) /\
          (forall c, covers l1' c <-> covers l1 c \/ (loa <= c <= hia /\ c < a))).
        { destruct ((loa =? hia) || (a =? loa)) eqn:E.
          - exists rs, l1, [(loa, hia)], ia.
            refine (conj _ (conj _ (conj _ (conj _ (conj _ (conj _ _))))));
              [reflexivity|lsolve|llen|llen|assumption|assumption|].
            intros c. intuition lia.
          - rewrite unichr_ok by lia. cbn [bind].
            rewrite (set_nth_eq rs l1 (mid ++ (loz, hiz) :: k3) (loa, hia)) by (lsolve || llen).
            cbn [bind].
            exists (l1 ++ (loa, a - 1) :: mid ++ (loz, hiz) :: k3), (l1 ++ [(loa, a - 1)]), [], (S ia).
            refine (conj _ (conj _ (conj _ (conj _ (conj _ (conj _ _))))));
              [reflexivity|lsolve|llen|llen| | |].
            + ssort; cbn; tauto.
            + intros r Hr. apply in_app_iff in Hr as [Hr|[<-|[]]]; [apply Hl1; exact Hr|cbn; lia].
            + intros c. cov. intuition lia. }
        destruct HL as (rs1 & l1' & m1 & snipA & -> & Hrs1 & HsA & Hlen & S1' & B1' & C1').
        cbn [bind].
        rewrite (index_eq rs1 (l1' ++ m1 ++ mid) k3 (loz, hiz)) by (lsolve || llen).
        cbn [bind].
        assert (HR : exists rs2 m2 k3' snipZ,
          (if (loz =? hiz) || (z =? hiz) then Ok (rs1, S iz)
           else z1 <- unichr M (z + 1) ;;
                rs2 <- set_nth rs1 iz (z1, hiz) ;; Ok (rs2, iz)) = Ok (rs2, snipZ) /\
          rs2 = l1' ++ (m1 ++ mid ++ m2) ++ k3' /\
          snipZ = (length l1' + length (m1 ++ mid ++ m2))%nat /\
          srt k3' /\ (forall r, In r k3' -> z < fst r) /\
          (forall c, covers k3' c <-> covers k3 c \/ (loz <= c <= hiz /\ z < c))).
        { destruct ((loz =? hiz) || (z =? hiz)) eqn:E.
          - exists rs1, [(loz, hiz)], k3, (S iz).
            refine (conj _ (conj _ (conj _ (conj _ (conj _ _)))));
              [reflexivity|lsolve|llen|assumption| |].
            + apply (Forall_gt_trans _ hiz); [exact B5|lia].
            + intros c. intuition lia.
          - rewrite unichr_ok by lia. cbn [bind].
            rewrite (set_nth_eq rs1 (l1' ++ m1 ++ mid) k3 (loz, hiz)) by (lsolve || llen).
            cbn [bind].
            exists ((l1' ++ m1 ++ mid) ++ (z + 1, hiz) :: k3), [], ((z + 1, hiz) :: k3), iz.
            refine (conj _ (conj _ (conj _ (conj _ (conj _ _)))));
              [reflexivity|lsolve|llen| | |].
            + change ((z + 1, hiz) :: k3) with ([] ++ (z + 1, hiz) :: k3). ssort; cbn; tauto.
            + intros r [<-|Hr]; [cbn; lia|]. apply B5 in Hr. lia.
            + intros c. cov. intuition lia. }
        destruct HR as (rs2 & m2 & k3' & snipZ & -> & Hrs2 & HsZ & S3' & B5' & C3').
        cbn [bind].
        destruct (Nat.leb_spec snipA snipZ) as [_|Hx]; [|lia].
        rewrite (splice_eq rs2 l1' (m1 ++ mid ++ m2) k3') by (lsolve || llen).
        cbn [app]. sdone.
        -- apply srt_app. repeat split; auto. intros x y Hx Hy.
           apply B1' in Hx; apply B5' in Hy; lia.
        -- intros c. unfold diff. subst rs. cov. rewrite C1', C3'. bounds c. clia.
    + destruct HA as (loa & hia & la & Hea & Hca).
      destruct mid as [|r mid].
      { cbn in Hea. subst k2. exfalso.
        assert (z < fst (loa, hia)) by (apply HZ; left; reflexivity). cbn in *. lia. }
      cbn in Hea. injection Hea as -> Hla. clear Hla.
      assert (Hs0 := Hs). rewrite Hd in Hs0. cbn [app] in Hs0.
      apply srt_mid in Hs0 as (S1 & S2 & V & B1 & B2).
      apply Forall_gt_app in B2 as [B2 B3].
      apply srt_app in S2 as (S2 & S3 & _).
      assert (hia < z) by (apply (Hmid (loa, hia)); left; reflexivity).
      assert (Hm2 : forall r, In r mid -> snd r < z) by (intros r Hr; apply Hmid; right; exact Hr).
      rewrite (index_eq rs l1 (mid ++ k2) (loa, hia)) by (lsolve || llen). cbn [bind].
      destruct ((loa =? hia) || (a =? loa)) eqn:E; cbn [bind].
      * rewrite (splice_eq rs l1 ((loa, hia) :: mid) k2) by (lsolve || llen). cbn [app].
        sdone.
        -- apply srt_app. repeat split; auto. intros x y Hx Hy.
           apply Hl1 in Hx; apply HZ in Hy; lia.
        -- intros c. unfold diff. subst rs. cov. bounds c. clia.
      * rewrite unichr_ok by lia. cbn [bind].
        rewrite (set_nth_eq rs l1 (mid ++ k2) (loa, hia)) by (lsolve || llen). cbn [bind].
        rewrite (splice_eq _ (l1 ++ [(loa, a - 1)]) mid k2) by (lsolve || llen).
        norm_list. sdone.
        -- ssort. all: try (apply (Forall_gt_trans _ z); [exact HZ|lia]).
        -- intros c. unfold diff. subst rs. cov. bounds c. clia.
    + destruct HZ as (loz & hiz & k3 & -> & Hcz).
      apply Forall_gt_app in HA as [HA1 HA2].
      assert (a < loz) by (apply (HA2 (loz, hiz)); left; reflexivity).
      assert (Hs0 := Hs). rewrite Hd in Hs0.
      apply srt_app in Hs0 as (S1 & S2 & _).
      apply srt_mid in S2 as (S2 & S3 & V3 & B4 & B5).
      rewrite (index_eq rs (l1 ++ mid) k3 (loz, hiz)) by (lsolve || llen). cbn [bind].
      destruct ((loz =? hiz) || (z =? hiz)) eqn:E; cbn [bind].
      * rewrite (splice_eq rs l1 (mid ++ [(loz, hiz)]) k3) by (lsolve || llen). cbn [app].
        sdone.
        -- apply srt_app. repeat split; auto. intros x y Hx Hy.
           apply Hl1 in Hx; apply B5 in Hy; lia.
        -- intros c. unfold diff. subst rs. cov. bounds c. clia.
      * rewrite unichr_ok by lia. cbn [bind].
        rewrite (set_nth_eq rs (l1 ++ mid) k3 (loz, hiz)) by (lsolve || llen). cbn [bind].
        rewrite (splice_eq _ l1 mid ((z + 1, hiz) :: k3)) by (lsolve || llen).
        norm_list. sdone.
        -- ssort. all: try (apply (Forall_lt_trans _ a); [exact Hl1|lia]).
        -- intros c. unfold diff. subst rs. cov. bounds c. clia.
    + apply Forall_gt_app in HA as [HA1 HA2].
      rewrite (splice_eq rs l1 mid k2) by (lsolve || llen).
      subst rs. cbn [app].
      apply srt_app in Hs as (S1 & S2 & _). apply srt_app in S2 as (S2 & S3 & _).
      sdone.
      * apply srt_app. repeat split; auto. intros x y Hx Hy.
        apply Hl1 in Hx; apply HZ in Hy; lia.
      * intros c. unfold diff. cov. bounds c. clia.
Qed.

Lemma sub_char_spec rs c0 :
  srt rs -> 0 <= c0 <= M ->
  exists rs', sub_char M rs c0 = Ok rs' /\ srt rs' /\
    forall c, covers rs' c <-> diff (covers rs) (between c0 c0) c.
Proof.
  intros Hs Hc0. unfold sub_char, between. rewrite Z.min_id, Z.max_id.
  destruct rs as [|r0 rs0] eqn:Hrs.
  - sdone; [exact I|]. intros c. unfold diff. rewrite covers_nil. tauto.
  - rewrite <- Hrs in *. assert (Hne : rs <> []) by (rewrite Hrs; discriminate).
    clear Hrs.
    destruct (bisect_spec rs c0 Hs Hne) as (b & i & -> & l1 & l2 & Hd & Hi & Hl1 & Hb).
    cbn [bind]. destruct b.
    + destruct Hb as (lo & hi & l3 & -> & Hc).
      assert (Hs0 := Hs). rewrite Hd in Hs0. apply srt_mid in Hs0 as (S1 & S2 & V & B1 & B2).
      rewrite (index_eq rs l1 l3 (lo, hi)) by (lsolve || llen). cbn [bind].
      destruct (lo =? hi) eqn:E1.
      { rewrite (splice_eq rs l1 [(lo, hi)] l3) by (lsolve || llen). cbn [app]. sdone.
        - apply srt_app. repeat split; auto. intros x y Hx Hy. apply Hl1 in Hx; apply B2 in Hy; lia.
        - intros c. unfold diff. subst rs. cov. bounds c. clia. }
      destruct (lo =? c0) eqn:E2.
      { rewrite unichr_ok by lia. cbn [bind].
        rewrite (set_nth_eq rs l1 l3 (lo, hi)) by (lsolve || llen). sdone.
        - ssort. all: try (apply (Forall_lt_trans _ lo); [exact B1|lia]).
        - intros c. unfold diff. subst rs. cov. bounds c. clia. }
      destruct (hi =? c0) eqn:E3.
      { rewrite unichr_ok by lia. cbn [bind].
        rewrite (set_nth_eq rs l1 l3 (lo, hi)) by (lsolve || llen). sdone.
        - ssort. all: try (apply (Forall_gt_trans _ hi); [exact B2|lia]).
        - intros c. unfold diff. subst rs. cov. bounds c. clia. }
      rewrite unichr_ok by lia. cbn [bind].
      rewrite (set_nth_eq rs l1 l3 (lo, hi)) by (lsolve || llen). cbn [bind].
      rewrite unichr_ok by lia. cbn [bind].
      rewrite (insert_at_eq _ (l1 ++ [(lo, c0 - 1)]) l3) by (lsolve || llen).
      norm_list. sdone.
      * ssort.
        -- change ((c0 + 1, hi) :: l3) with ([] ++ (c0 + 1, hi) :: l3).
           ssort; cbn; tauto.
        -- intros r [<-|Hr]; [cbn; lia|]. apply B2 in Hr. lia.
      * intros c. unfold diff. subst rs. cov. bounds c. clia.
    + sdone; [exact Hs|]. intros c. unfold diff. subst rs. cov. bounds c. clia.
Qed.

Lemma add_ranges_spec l : forall rs,
  srt rs -> (forall r, In r l -> valid r) ->
  exists rs', add_ranges rs l = Ok rs' /\ srt rs' /\
    forall c, covers rs' c <-> union (covers rs) (covers l) c.
Proof.
  induction l as [|[a z] l IH]; intros rs Hs Hl; cbn [add_ranges].
  - sdone; [exact Hs|]. intros c. unfold union. rewrite covers_nil. tauto.
  - assert (Hv : valid (a, z)) by (apply Hl; left; reflexivity). unfold valid in Hv; cbn in Hv.
    destruct (add_range_spec rs a z Hs) as (rs1 & -> & H1 & C1); [lia|lia|]. cbn [bind].
    destruct (IH rs1 H1) as (rs2 & -> & H2 & C2). { intros r Hr. apply Hl. right; exact Hr. }
    sdone; [exact H2|]. intros c. rewrite C2. unfold union. rewrite C1, covers_cons.
    unfold union, between. rewrite Z.min_l, Z.max_r by lia. tauto.
Qed.

Lemma sub_ranges_spec l : forall rs,
  srt rs -> (forall r, In r l -> valid r) ->
  exists rs', sub_ranges M rs l = Ok rs' /\ srt rs' /\
    forall c, covers rs' c <-> diff (covers rs) (covers l) c.
Proof.
  induction l as [|[a z] l IH]; intros rs Hs Hl; cbn [sub_ranges].
  - sdone; [exact Hs|]. intros c. unfold diff. rewrite covers_nil. tauto.
  - assert (Hv : valid (a, z)) by (apply Hl; left; reflexivity). unfold valid in Hv; cbn in Hv.
    destruct (sub_range_spec rs a z Hs) as (rs1 & -> & H1 & C1); [lia|lia|]. cbn [bind].
    destruct (IH rs1 H1) as (rs2 & -> & H2 & C2). { intros r Hr. apply Hl. right; exact Hr. }
    sdone; [exact H2|]. intros c. rewrite C2. unfold diff. rewrite C1, covers_cons.
    unfold diff, between. rewrite Z.min_l, Z.max_r by lia. tauto.
Qed.

Lemma add_class_spec rs c :
  srt rs -> srt c ->
  exists rs', add_class rs c = Ok rs' /\ srt rs' /\
    forall x, covers rs' x <-> union (covers rs) (covers c) x.
Proof.
  intros Hs Hc. unfold add_class. destruct rs as [|r0 rs0] eqn:E.
  - sdone; [exact Hc|]. intros x. unfold union. rewrite covers_nil. tauto.
  - rewrite <- E in *. apply add_ranges_spec; [exact Hs|].
    intros r Hr. apply (srt_valid c); assumption.
Qed.

Lemma negate_spec rs :
  0 <= M -> srt rs ->
  exists rs', negate M rs = Ok rs' /\ srt rs' /\
    forall c, covers rs' c <-> compl M (covers rs) c.
Proof.
  intros HM Hs. unfold negate. rewrite !unichr_ok by lia. cbn [bind].
  destruct (add_range_spec [] 0 M) as (f & -> & Hf & Cf); [exact I|lia|lia|]. cbn [bind].
  destruct (sub_ranges_spec rs f Hf) as (rs' & H & Hs' & C').
  { intros r Hr. apply (srt_valid rs); assumption. }
  exists rs'. split; [exact H|]. split; [exact Hs'|].
  intros c. rewrite C'. unfold diff, compl. rewrite Cf. unfold union, between.
  rewrite Z.min_l, Z.max_r, covers_nil by lia. tauto.
Qed.

Lemma test_spec rs c :
  srt rs -> exists b, test rs (Some c) = Ok b /\ (b = true <-> covers rs c).
Proof.
  intros Hs. unfold test. destruct rs as [|r0 rs0] eqn:E.
  - exists false. split; [reflexivity|]. rewrite covers_nil. split; [discriminate|tauto].
  - rewrite <- E in *. assert (Hne : rs <> []) by (rewrite E; discriminate).
    destruct (bisect_spec rs c Hs Hne) as (b & i & -> & l1 & l2 & Hd & Hi & Hl1 & Hb).
    cbn [bind]. exists b. split; [reflexivity|]. subst rs. rewrite Hd.
    destruct b.
    + destruct Hb as (lo & hi & l3 & -> & Hc). cov. tauto.
    + cov. bounds c. split; [discriminate|]. intros [H1|H1]; exfalso.
      * apply (covers_lt _ c) in H1; [lia|exact Hl1].
      * apply (covers_gt _ c) in H1; [lia|exact Hb].
Qed.

(** ** Histories *)

Lemma run_op_spec (HM : 0 <= M) : forall o rs s,
  op_ok M o -> srt rs -> (forall c, covers rs c <-> s c) ->
  exists rs', run_op M rs o = Ok rs' /\ srt rs' /\
    forall c, covers rs' c <-> denote_op M s o c.
Proof.
  fix IH 1. intros o rs s Ho Hs HC.
  assert (IHl : forall l rs s, (fix ops_ok (l : list op) : Prop :=
      match l with [] => True | o :: l' => op_ok M o /\ ops_ok l' end) l -> srt rs ->
      (forall c, covers rs c <-> s c) -> exists rs',
      (fix run_all (rs : cc) (l : list op) {struct l} : result cc :=
         match l with [] => Ok rs | o :: l' => rs1 <- run_op M rs o ;; run_all rs1 l' end) rs l
      = Ok rs' /\ srt rs' /\ forall c, covers rs' c <->
      (fix denote_all (s : cset) (l : list op) {struct l} : cset :=
         match l with [] => s | o :: l' => denote_all (denote_op M s o) l' end) s l c) .
  { induction l as [|o' l IHl]; intros rs1 s1 Hok Hs1 HC1.
    - exists rs1. auto.
    - destruct Hok as [Hok1 Hok2].
      destruct (IH o' rs1 s1 Hok1 Hs1 HC1) as (rs2 & -> & Hs2 & HC2). cbn [bind].
      apply (IHl rs2); auto. }
  destruct o as [a z|a z|c|c|h|h|]; cbn [op_ok run_op denote_op] in *.
  - destruct (add_range_spec rs a z Hs) as (rs' & H1 & H2 & H3); [tauto|tauto|].
    exists rs'. split; [exact H1|]. split; [exact H2|]. intros x. rewrite H3.
    unfold union, diff, compl, singleton, between. rewrite HC. tauto.
  - destruct (sub_range_spec rs a z Hs) as (rs' & H1 & H2 & H3); [tauto|tauto|].
    exists rs'. split; [exact H1|]. split; [exact H2|]. intros x. rewrite H3.
    unfold union, diff, compl, singleton, between. rewrite HC. tauto.
  - destruct (add_char_spec rs c Hs) as (rs' & H1 & H2 & H3); [tauto|].
    exists rs'. split; [exact H1|]. split; [exact H2|]. intros x. rewrite H3.
    unfold union, diff, compl, singleton, between. rewrite HC. intuition lia.
  - destruct (sub_char_spec rs c Hs) as (rs' & H1 & H2 & H3); [tauto|].
    exists rs'. split; [exact H1|]. split; [exact H2|]. intros x. rewrite H3.
    unfold union, diff, compl, singleton, between. rewrite HC. intuition lia.
  - destruct (IHl h [] empty Ho I) as (c & -> & Hc1 & Hc2).
    { intros c. rewrite covers_nil. unfold empty. tauto. }
    cbn [bind]. destruct (add_class_spec rs c Hs Hc1) as (rs' & H1 & H2 & H3).
    exists rs'. split; [exact H1|]. split; [exact H2|]. intros x. rewrite H3.
    unfold union, diff, compl, singleton, between. rewrite HC. rewrite Hc2. tauto.
  - destruct (IHl h [] empty Ho I) as (c & -> & Hc1 & Hc2).
    { intros c. rewrite covers_nil. unfold empty. tauto. }
    cbn [bind]. destruct (sub_ranges_spec c rs Hs) as (rs' & H1 & H2 & H3).
    { intros r Hr. apply (srt_valid c); assumption. }
    exists rs'. split; [exact H1|]. split; [exact H2|]. intros x. rewrite H3.
    unfold union, diff, compl, singleton, between. rewrite HC. rewrite Hc2. tauto.
  - destruct (negate_spec rs HM Hs) as (rs' & H1 & H2 & H3).
    exists rs'. split; [exact H1|]. split; [exact H2|]. intros x. rewrite H3.
    unfold union, diff, compl, singleton, between. rewrite HC. tauto.
Qed.

Lemma run_ops_spec (HM : 0 <= M) : forall l rs s,
  ops_ok M l -> srt rs -> (forall c, covers rs c <-> s c) ->
  exists rs', run_ops M rs l = Ok rs' /\ srt rs' /\
    forall c, covers rs' c <-> denote_ops M s l c.
Proof.
  induction l as [|o l IHl]; intros rs s Hok Hs HC.
  - exists rs. auto.
  - destruct Hok as [Hok1 Hok2]. cbn [run_ops denote_ops].
    destruct (run_op_spec HM o rs s Hok1 Hs HC) as (rs2 & -> & Hs2 & HC2). cbn [bind].
    apply (IHl rs2); auto.
Qed.

Lemma run_ops_from_empty (HM : 0 <= M) h :
  ops_ok M h -> exists rs, run_ops M [] h = Ok rs /\ srt rs /\
    forall c, covers rs c <-> denote_ops M empty h c.
Proof.
  intros H. apply run_ops_spec; auto; [exact I|].
  intros c. rewrite covers_nil. unfold empty. tauto.
Qed.

(** ** Property lemmas *)

Lemma history_is_set h :
  0 <= M -> ops_ok M h ->
  exists rs, run_ops M [] h = Ok rs /\
    forall c, exists b, test rs (Some c) = Ok b /\ (b = true <-> denote_ops M empty h c).
Proof.
  intros HM H. destruct (run_ops_from_empty HM h H) as (rs & Hr & Hs & HC).
  exists rs. split; [exact Hr|]. intros c. destruct (test_spec rs c Hs) as (b & Hb & Hb2).
  exists b. split; [exact Hb|]. rewrite <- HC. exact Hb2.
Qed.

Lemma history_ranges_ok h :
  0 <= M -> ops_ok M h -> exists rs, run_ops M [] h = Ok rs /\ ranges_ok M rs.
Proof.
  intros HM H. destruct (run_ops_from_empty HM h H) as (rs & Hr & Hs & HC).
  exists rs. split; [exact Hr|]. apply srt_ranges_ok; exact Hs.
Qed.

Lemma test_linear rs c :
  ranges_ok M rs -> exists b, test rs (Some c) = Ok b /\ (b = true <-> covers rs c).
Proof. intros H. apply test_spec. apply srt_ranges_ok; exact H. Qed.

Lemma cc_eq_eq rs1 rs2 : cc_eq rs1 rs2 = true <-> rs1 = rs2.
Proof.
  revert rs2; induction rs1 as [|[a z] t IH]; intros [|[b y] t2]; cbn [cc_eq]; split; intros H;
    try reflexivity; try discriminate.
  - apply andb_true_iff in H as [H1 H2]. apply IH in H2. subst.
    assert (a = b /\ z = y) as [-> ->] by lia. reflexivity.
  - injection H as -> -> ->. rewrite !Z.eqb_refl. cbn. apply IH; reflexivity.
Qed.

(** Canonical lists (no two ranges touch) are determined by the set they cover. *)
Lemma canonical_unique rs1 : forall rs2,
  ranges_ok M rs1 -> ranges_ok M rs2 -> no_touch rs1 -> no_touch rs2 ->
  (forall c, covers rs1 c <-> covers rs2 c) -> rs1 = rs2.
Proof.
  intros rs2 H1 H2. apply srt_ranges_ok in H1, H2. revert rs2 H1 H2.
  induction rs1 as [|[a z] t IH]; intros rs2 H1 H2 N1 N2 HC.
  - destruct rs2 as [|[b y] t2]; [reflexivity|]. exfalso.
    cbn in H2. unfold valid in H2; cbn in H2.
    assert (covers [] b) as HX by (apply HC; apply covers_cons; left; lia).
    apply covers_nil in HX. exact HX.
  - destruct rs2 as [|[b y] t2].
    { exfalso. cbn in H1. unfold valid in H1; cbn in H1.
      assert (covers [] a) as HX by (apply HC; apply covers_cons; left; lia).
      apply covers_nil in HX. exact HX. }
    change ((a, z) :: t) with ([] ++ (a, z) :: t) in H1. apply srt_mid in H1 as (_ & S1 & V1 & _ & B1).
    change ((b, y) :: t2) with ([] ++ (b, y) :: t2) in H2. apply srt_mid in H2 as (_ & S2 & V2 & _ & B2).
    assert (Hab : a = b).
    { assert (Ca : covers ((b, y) :: t2) a) by (apply HC; apply covers_cons; left; lia).
      assert (Cb : covers ((a, z) :: t) b) by (apply HC; apply covers_cons; left; lia).
      apply covers_cons in Ca, Cb.
      pose proof (covers_gt t z b B1). pose proof (covers_gt t2 y a B2). clia. }
    subst b.
    assert (T1 : ~ covers t (z + 1)).
    { intros (p & q & Hi & Hpq). apply In_nth_error in Hi as [n Hn].
      assert (z + 1 < p).
      { destruct n as [|n].
        - apply (N1 0%nat a z p q); [reflexivity|exact Hn].
        - destruct t as [|[p0 q0] t']; [discriminate|].
          assert (z + 1 < p0) by (apply (N1 0%nat a z p0 q0); reflexivity).
          cbn in Hn. apply nth_error_In in Hn. cbn in S1. unfold valid in S1. cbn in S1.
          destruct S1 as (V & S1 & _). apply S1 in Hn. cbn in Hn. lia. }
      lia. }
    assert (T2 : ~ covers t2 (y + 1)).
    { intros (p & q & Hi & Hpq). apply In_nth_error in Hi as [n Hn].
      assert (y + 1 < p).
      { destruct n as [|n].
        - apply (N2 0%nat a y p q); [reflexivity|exact Hn].
        - destruct t2 as [|[p0 q0] t']; [discriminate|].
          assert (y + 1 < p0) by (apply (N2 0%nat a y p0 q0); reflexivity).
          cbn in Hn. apply nth_error_In in Hn. cbn in S2. unfold valid in S2. cbn in S2.
          destruct S2 as (V & S2 & _). apply S2 in Hn. cbn in Hn. lia. }
      lia. }
    assert (Hzy : z = y).
    { pose proof (HC (z + 1)) as Q1. pose proof (HC (y + 1)) as Q2.
      rewrite !covers_cons in Q1, Q2. clia. }
    subst y. f_equal. apply IH; auto.
    + intros i p q p' q' Hi Hj. apply (N1 (S i) p q p' q'); assumption.
    + intros i p q p' q' Hi Hj. apply (N2 (S i) p q p' q'); assumption.
    + intros c. pose proof (HC c) as Q. rewrite !covers_cons in Q.
      pose proof (covers_gt t z c B1). pose proof (covers_gt t2 z c B2). clia.
Qed.

Lemma double_negate rs :
  0 <= M -> ranges_ok M rs ->
  exists rs1 rs2, negate M rs = Ok rs1 /\ negate M rs1 = Ok rs2 /\
    (forall c, covers rs1 c <-> compl M (covers rs) c) /\
    (forall c, covers rs2 c <-> covers rs c).
Proof.
  intros HM H. apply srt_ranges_ok in H.
  destruct (negate_spec rs HM H) as (rs1 & N1 & S1 & C1).
  destruct (negate_spec rs1 HM S1) as (rs2 & N2 & S2 & C2).
  exists rs1, rs2. split; [exact N1|]. split; [exact N2|]. split; [exact C1|].
  intros c. rewrite C2. unfold compl. rewrite C1. unfold compl.
  assert (Hr : covers rs c -> 0 <= c <= M).
  { intros (a & z & Hi & Hc). apply (srt_valid rs) in Hi; [|exact H].
    unfold valid in Hi; cbn in Hi. lia. }
  clia.
Qed.

(** ** Operations with self as the operand *)

Lemma add_self_id rs : ranges_ok M rs -> add_self rs = Ok rs.
Proof.
  intros H. apply srt_ranges_ok in H. unfold add_self. destruct rs as [|r0 rs0] eqn:E; [reflexivity|].
  rewrite <- E in *. assert (Hne : rs <> []) by (rewrite E; discriminate). clear E.
  assert (G : forall fuel i, (length rs <= i + fuel)%nat ->
    iter_self add_range (S fuel) rs i = Ok rs).
  { induction fuel as [|fuel IH]; intros i Hi.
    - cbn [iter_self]. destruct (nth_error rs i) eqn:En; [|reflexivity].
      assert (i < length rs)%nat by (apply nth_error_Some; congruence). lia.
    - remember (S fuel) as f. cbn [iter_self]. destruct (nth_error rs i) as [[a z]|] eqn:En; [|reflexivity].
      assert (Hadd : add_range rs a z = Ok rs).
      { assert (Hv : valid (a, z)) by (apply (srt_valid rs); [exact H|eapply nth_error_In; eauto]).
        unfold valid in Hv; cbn in Hv. unfold add_range.
        replace (z <? a) with false by lia.
        apply nth_error_in_split in En as (l1 & l2 & Hd & Hl).
        assert (U : forall c b j, a <= c <= z -> found rs c b j -> b = true /\ j = length l1).
        { intros c b j Hc (m1 & m2 & Hm & Hj & HL & HR).
          assert (Hlen : length m1 = length l1).
          { assert (Hs := H). rewrite Hd in Hs. apply srt_mid in Hs as (_ & _ & _ & B1 & B2).
            destruct (Nat.lt_trichotomy (length m1) (length l1)) as [Hlt|[Heq|Hgt]]; [|exact Heq|].
            - exfalso. destruct (app_split m1 m2 l1 ((a, z) :: l2)) as (mid & Hm1 & Hm2); [congruence|lia|].
              destruct mid as [|x mid]; [rewrite app_nil_r in Hm1; subst; lia|].
              assert (Hx : snd x < a) by (apply B1; rewrite Hm1; apply in_app_iff; right; left; reflexivity).
              assert (Hvx : valid x).
              { apply (srt_valid rs); [exact H|]. rewrite Hm, Hm2. apply in_app_iff; right; left; reflexivity. }
              unfold valid in Hvx. destruct b.
              + destruct HR as (lo & hi & l3 & He & Hc2). rewrite Hm2 in He. injection He as -> _.
                cbn in *. lia.
              + assert (c < fst x) by (apply HR; rewrite Hm2; left; reflexivity). lia.
            - exfalso. destruct (app_split l1 ((a, z) :: l2) m1 m2) as (mid & Hm1 & Hm2); [congruence|lia|].
              destruct mid as [|x mid]; [rewrite app_nil_r in Hm1; subst; lia|].
              cbn in Hm2. injection Hm2 as <- Hm2.
              assert (snd (a, z) < c) by (apply HL; rewrite Hm1; apply in_app_iff; right; left; reflexivity).
              cbn in *. lia. }
          destruct (app_split m1 m2 l1 ((a, z) :: l2)) as (mid & Hm1 & Hm2); [congruence|lia|].
          assert (mid = []) by (destruct mid; [reflexivity|subst l1; rewrite app_length in Hlen; cbn in Hlen; lia]).
          subst mid. cbn in Hm2. split; [|lia].
          destruct b; [reflexivity|]. assert (c < fst (a, z)) by (apply HR; rewrite Hm2; left; reflexivity).
          cbn in *. lia. }
        destruct (bisect_spec rs a H Hne) as (ba & ia & Ea & Fa).
        destruct (bisect_spec rs z H Hne) as (bz & iz & Ez & Fz).
        apply U in Fa as [-> ->]; [|lia]. apply U in Fz as [-> ->]; [|lia].
        destruct rs as [|r1 rs1] eqn:E; [congruence|]. rewrite <- E in *.
        rewrite Ea, Ez. cbn [bind]. rewrite Nat.eqb_refl. reflexivity. }
      rewrite Hadd. cbn [bind]. subst f. apply IH. lia. }
  apply G. lia.
Qed.
End Proofs.
