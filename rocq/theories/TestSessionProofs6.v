From Verif Require Import Py TestForm TestFormSpec TestSession TestSessionSpec TestSessionProofs
  TestSessionProofs2 TestSessionProofs3.
Open Scope Z_scope.

Section Proofs.
Variable V : Type.
Variable form : list str.
Variable parts : str -> option (tpart V).
Variable start_item : nat -> V -> V * result unit.

Notation BranchTarget := (BranchTarget V form parts).
Notation GetBranchTarget := (GetBranchTarget V parts).
Notation check_target := (check_target V parts).
Notation seek := (seek V parts).
Notation nest := (nested (is_item parts) (is_group parts)).
Notation p_rules := (p_rules V).

Lemma close_nonempty g : close g <> [].
Proof. discriminate. Qed.

Lemma check_ok p t : may_go parts p t -> check_target p t = Ok t.
Proof.
  unfold may_go, TestSession.check_target, is_kpart. intros [->|[[Hp (q & Hq & l & i & Hk)]|[Hp H]]].
  - change (lit "EXIT_TEST") with EXIT_TEST. rewrite str_eqb_refl, !orb_true_r. destruct (p_kind V p); reflexivity.
  - destruct Hp as (lp & ip & ->). rewrite Hq, Hk. destruct (str_eqb t EXIT_TEST); reflexivity.
  - destruct (p_kind V p) as [l i| |]; [exfalso; apply Hp; eauto| |].
    + destruct H as [->|[->|(q & Hq & Hk & Hh)]].
      * change (lit "EXIT_SECTION") with EXIT_SECTION. rewrite str_eqb_refl. reflexivity.
      * change (lit "EXIT_TESTPART") with EXIT_TESTPART. rewrite str_eqb_refl, orb_true_r. reflexivity.
      * rewrite Hq, Hh, str_eqb_refl. destruct (_ || _); [reflexivity|].
        destruct (p_kind V q) as [l i| |]; [exfalso; apply Hk; eauto|reflexivity..].
    + destruct H as [->|[->|(q & Hq & Hk & Hh)]].
      * change (lit "EXIT_SECTION") with EXIT_SECTION. rewrite str_eqb_refl. reflexivity.
      * change (lit "EXIT_TESTPART") with EXIT_TESTPART. rewrite str_eqb_refl, orb_true_r. reflexivity.
      * rewrite Hq, Hh, str_eqb_refl. destruct (_ || _); [reflexivity|].
        destruct (p_kind V q) as [l i| |]; [exfalso; apply Hk; eauto|reflexivity..].
Qed.

Lemma first_fires p v t : fires p v t -> may_go parts p t -> first_rule V parts p (p_rules p) v = Ok (Some t).
Proof.
  intros (a & c & b & E & Ha & Hc) Ht. rewrite E. clear E. induction a as [|[c' t'] a IH]; cbn [app first_rule].
  - rewrite Hc. cbn [bind]. rewrite check_ok by exact Ht. reflexivity.
  - apply Forall_cons_iff in Ha as [H1 H2]. cbn in H1. rewrite H1. cbn [bind]. apply IH, H2.
Qed.
Lemma first_none p v : no_rule p v -> first_rule V parts p (p_rules p) v = Ok None.
Proof.
  unfold no_rule. induction (p_rules p) as [|[c t] l IH]; intros H; [reflexivity|].
  apply Forall_cons_iff in H as [H1 H2]. cbn in H1 |- *. rewrite H1. cbn [bind]. apply IH, H2.
Qed.
Lemma target_eq p v : obeys parts p -> GetBranchTarget p v = first_rule V parts p (p_rules p) v.
Proof.
  unfold obeys, TestSession.GetBranchTarget, modes. destruct (p_kind V p) as [l i| |]; [reflexivity|..];
  intros (q & i & Hq & Hk); rewrite Hq; destruct q as [k h pr ru]; cbn in Hk; subst k; reflexivity.
Qed.
Lemma branch_eq i p v : stands_for form parts i p -> 
  BranchTarget i v =
    (target <- GetBranchTarget p v ;;
     match target with
     | None => Ok (S i)
     | Some t => if str_eqb t EXIT_TEST then Ok (length form)
                 else seek t (skipn (S i) form) (S i)
     end).
Proof.
  intros (id & Hp & Hpl & [Hn|Hn]); unfold TestSession.BranchTarget, index; rewrite Hn; cbn [bind].
  - destruct id as [|c id]; [destruct Hpl|]. cbn [is_close]. cbn in Hpl. replace (c =? 45) with false by lia. cbn [bind].
    unfold GetPart. rewrite Hp. reflexivity.
  - change (is_close (close id)) with (@Ok bool true). cbn [bind]. change (tl (close id)) with id. unfold GetPart. rewrite Hp. reflexivity.
Qed.

Lemma branch_none i p v : stands_for form parts i p -> obeys parts p -> no_rule p v -> BranchTarget i v = Ok (S i).
Proof. intros Hs Ho Hn. rewrite (branch_eq i p), target_eq, first_none by assumption. reflexivity. Qed.
Lemma branch_seek i p v t : stands_for form parts i p -> obeys parts p -> fires p v t -> may_go parts p t ->
  t <> EXIT_TEST -> BranchTarget i v = seek t (skipn (S i) form) (S i).
Proof.
  intros Hs Ho Hn Ht Hne. rewrite (branch_eq i p), target_eq, (first_fires p v t) by assumption. cbn [bind].
  destruct (str_eqb t EXIT_TEST) eqn:E; [apply str_eqb_eq in E; congruence|reflexivity].
Qed.
Lemma branch_test i p v : stands_for form parts i p -> obeys parts p -> fires p v EXIT_TEST ->
  BranchTarget i v = Ok (length form).
Proof.
  intros Hs Ho Hn. rewrite (branch_eq i p), target_eq, (first_fires p v EXIT_TEST); [|assumption|left; reflexivity|assumption..].
  cbn [bind]. rewrite str_eqb_refl. reflexivity.
Qed.

(** ** Looking for the target *)

Definition good (id : str) : Prop := is_close id <> Err IndexError.
Lemma seek_app t a rest pos : 
  (forall id, In id a -> t <> id) ->
  (forall id, In id a -> exists m, is_close id = Ok m /\
     (m = true -> t <> EXIT_SECTION /\
        (t = EXIT_TESTPART -> exists q, parts (tl id) = Some q /\ p_kind V q = KSection))) ->
  seek t (a ++ rest) pos = seek t rest (pos + length a).
Proof.
  revert pos. induction a as [|id a IH]; intros pos Hne Ha; [cbn; f_equal; lia|].
  cbn [app TestSession.seek length].
  assert (Hid : t <> id) by (apply Hne; left; reflexivity). apply str_eqb_neq in Hid. rewrite Hid.
  destruct (Ha id (or_introl eq_refl)) as (m & -> & Hm). cbn [bind].
  rewrite Nat.add_succ_r. change (S (pos + length a)) with (S pos + length a)%nat.
  rewrite <- IH; [|intros id' H'; apply Hne; right; exact H'|intros id' H'; apply Ha; right; exact H'].
  destruct m; [|reflexivity]. destruct (Hm eq_refl) as [Hs Hp]. apply str_eqb_neq in Hs. rewrite Hs.
  destruct (str_eqb t EXIT_TESTPART) eqn:E; [|reflexivity]. apply str_eqb_eq in E.
  destruct (Hp E) as (q & Hq & Hk). unfold GetPart. rewrite Hq. cbn [bind]. rewrite Hk. reflexivity.
Qed.

Lemma plain_close id : plain id -> is_close id = Ok false.
Proof. destruct id as [|c id]; cbn; [tauto|]. intros H. replace (c =? 45) with false by lia. reflexivity. Qed.

Lemma skipn_split {A} (pre l : list A) i : length pre = S i -> skipn (S i) (pre ++ l) = l.
Proof. intros <-. rewrite skipn_app, skipn_all, Nat.sub_diag. reflexivity. Qed.

Lemma exit_part i p v pre mid g post : 
  reserved parts -> form = pre ++ mid ++ close g :: post -> length pre = S i -> is_part parts g ->
  Forall (fun id => is_item parts id \/ is_section parts id \/ exists s, id = close s /\ is_section parts s) mid ->
  stands_for form parts i p -> obeys parts p -> fires p v EXIT_TESTPART -> ~ is_kpart p ->
  BranchTarget i v = Ok (S i + length mid + 1)%nat.
Proof.
  intros Hres Hf Hl Hg Hmid Hs Ho Hfi Hk.
  rewrite (branch_seek i p v EXIT_TESTPART); [|assumption..|right; right; split; [exact Hk|auto]|discriminate].
  rewrite Hf, skipn_split by exact Hl. rewrite Forall_forall in Hmid. destruct Hres as (_ & _ & Hres).
  rewrite seek_app.
  - cbn [TestSession.seek]. change (str_eqb EXIT_TESTPART (close g)) with false. change (is_close (close g)) with (@Ok bool true). cbn [bind].
    change (tl (close g)) with g. change (str_eqb EXIT_TESTPART EXIT_SECTION) with false.
    rewrite str_eqb_refl. destruct Hg as (_ & q & l & ii & Hq & Hkq). unfold GetPart. rewrite Hq. cbn [bind]. rewrite Hkq.
    f_equal. lia.
  - intros id Hid <-. destruct (Hmid _ Hid) as [(_ & q & Hq & _)|[(_ & q & Hq & _)|(s & E & _)]].
    + unfold EXIT_TESTPART in Hq. congruence.
    + unfold EXIT_TESTPART in Hq. congruence.
    + discriminate.
  - intros id Hid. destruct (Hmid _ Hid) as [(Hp & _)|[(Hp & _)|(s & -> & _ & q & Hq & Hkq)]].
    + exists false. split; [apply plain_close, Hp|discriminate].
    + exists false. split; [apply plain_close, Hp|discriminate].
    + exists true. split; [reflexivity|]. intros _. split; [discriminate|]. intros _. exists q. auto.
Qed.

Lemma exit_section i p v pre mid g post : 
  reserved parts -> form = pre ++ mid ++ close g :: post -> length pre = S i ->
  Forall (is_item parts) mid ->
  stands_for form parts i p -> obeys parts p -> fires p v EXIT_SECTION -> ~ is_kpart p ->
  BranchTarget i v = Ok (S i + length mid + 1)%nat.
Proof.
  intros Hres Hf Hl Hmid Hs Ho Hfi Hk.
  rewrite (branch_seek i p v EXIT_SECTION); [|assumption..|right; right; split; [exact Hk|auto]|discriminate].
  rewrite Hf, skipn_split by exact Hl. rewrite Forall_forall in Hmid. destruct Hres as (_ & Hres & _).
  rewrite seek_app.
  - cbn [TestSession.seek]. change (str_eqb EXIT_SECTION (close g)) with false. change (is_close (close g)) with (@Ok bool true). cbn [bind].
    change (tl (close g)) with g. rewrite str_eqb_refl. f_equal. lia.
  - intros id Hid <-. destruct (Hmid _ Hid) as (_ & q & Hq & _). unfold EXIT_SECTION in Hq. congruence.
  - intros id Hid. destruct (Hmid _ Hid) as (Hp & _). exists false. split; [apply plain_close, Hp|discriminate].
Qed.

Lemma tail_closed l : nest l -> forall id, In id l -> exists m, is_close id = Ok m.
Proof.
  intros H id Hid. apply (nested_known V parts) in H. rewrite Forall_forall in H.
  destruct (H id Hid) as [E|[[Hp _]|[Hp _]]]; [eauto| |]; exists false; apply plain_close, Hp.
Qed.
Lemma skipn_tail l i id : form = [] :: l -> In id (skipn (S i) form) -> In id l.
Proof.
  intros -> H. cbn [skipn] in H. rewrite <- (firstn_skipn i l). apply in_or_app. right. exact H.
Qed.

Lemma not_exit t q : reserved parts -> parts t = Some q -> t <> EXIT_TEST /\ t <> EXIT_SECTION /\ t <> EXIT_TESTPART.
Proof.
  intros (H1 & H2 & H3) Hq. unfold EXIT_TEST, EXIT_SECTION, EXIT_TESTPART. repeat split; congruence.
Qed.

Lemma go_to i p v t q pre mid post :
  form_ok form parts -> reserved parts -> form = pre ++ mid ++ t :: post -> length pre = S i -> ~ In t mid ->
  stands_for form parts i p -> obeys parts p -> fires p v t -> parts t = Some q -> may_go parts p t ->
  BranchTarget i v = Ok (S i + length mid)%nat.
Proof.
  intros (l & Hl & Hn) Hres Hf Hlen Hnot Hs Ho Hfi Hq Hm. destruct (not_exit t q Hres Hq) as (N1 & N2 & N3).
  rewrite (branch_seek i p v t) by assumption.
  assert (Hin : forall id, In id mid -> In id l).
  { intros id Hid. apply (skipn_tail l i id Hl). rewrite Hf, skipn_split by exact Hlen. apply in_or_app. left. exact Hid. }
  rewrite Hf, skipn_split by exact Hlen. rewrite seek_app.
  - cbn [TestSession.seek]. rewrite str_eqb_refl. reflexivity.
  - intros id Hid <-. exact (Hnot Hid).
  - intros id Hid. destruct (tail_closed l Hn id (Hin id Hid)) as [m Hc]. exists m. split; [exact Hc|].
    intros _. split; [exact N2|]. intros E. congruence.
Qed.
Lemma go_nowhere i p v t q :
  form_ok form parts -> reserved parts -> ~ In t (skipn (S i) form) -> (i < length form)%nat ->
  stands_for form parts i p -> obeys parts p -> fires p v t -> parts t = Some q -> may_go parts p t ->
  BranchTarget i v = Ok (length form).
Proof.
  intros (l & Hl & Hn) Hres Hnot Hi Hs Ho Hfi Hq Hm. destruct (not_exit t q Hres Hq) as (N1 & N2 & N3).
  rewrite (branch_seek i p v t) by assumption.
  rewrite <- (app_nil_r (skipn (S i) form)), seek_app.
  - cbn [TestSession.seek]. rewrite skipn_length. f_equal. lia.
  - intros id Hid <-. exact (Hnot Hid).
  - intros id Hid. destruct (tail_closed l Hn id (skipn_tail l i id Hl Hid)) as [m Hc]. exists m. split; [exact Hc|].
    intros _. split; [exact N2|]. intros E. congruence.
Qed.

(** ** Simple linear tests *)

Definition simple : Prop :=
  forall id p, parts id = Some p ->
    match p_kind V p with
    | KPart l _ => l = true /\ p_pre V p = [] /\ p_rules p = []
    | KSection => p_pre V p = [] /\ p_rules p = []
    | KItem => True
    end.

Lemma nested_closes l : nest l -> forall id, In id l -> is_close id = Ok true -> exists g, id = close g /\ is_group parts g.
Proof.
  induction 1 as [|id l Hi H IH|g l l' Hg H IH H' IH']; intros x Hx Hc.
  - destruct Hx.
  - destruct Hx as [<-|Hx]; [|auto]. destruct Hi as [Hp _]. rewrite plain_close in Hc by exact Hp. discriminate.
  - destruct Hx as [<-|Hx].
    + destruct Hg as [Hp _]. rewrite plain_close in Hc by exact Hp. discriminate.
    + apply in_app_or in Hx as [Hx|[<-|Hx]]; [auto|exists g; auto|auto].
Qed.

Lemma simple_next iQ v v' r : form_ok form parts -> simple ->
  search V form parts start_item iQ v = (v', r) ->
  (forall q, r = Ok q ->
   forall k id, (iQ <= k)%nat -> match q with Some j => (k < j)%nat | None => True end ->
     item_at form parts k id -> holds V form parts k v false) /\
  (forall j, r = Ok (Some j) -> exists id, item_at form parts j id) /\
  (forall j, r = Ok (Some j) -> holds V form parts j v true).
Proof.
  intros (l & Hl & Hn) Hs H. unfold search in H.
  destruct (next_loop V form parts start_item (S (length form)) iQ v) as [x|] eqn:E.
  - subst x. eapply next_loop_linear; [| |exact E].
    + intros id p Hp. specialize (Hs id p Hp). destruct (p_kind V p); tauto.
    + intros id p Hin Hc Hp. rewrite Hl in Hin. destruct Hin as [<-|Hin]; [discriminate|].
      destruct (nested_closes l Hn id Hin Hc) as (g & -> & _ & q & Hq & Hk). cbn in Hp. 
      specialize (Hs g p Hp). assert (q = p) by congruence. subst q. destruct (p_kind V p); [tauto|tauto|congruence].
  - exfalso. revert E. apply next_loop_ends. lia.
Qed.

End Proofs.
