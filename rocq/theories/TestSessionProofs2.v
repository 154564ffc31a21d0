From Verif Require Import Py TestForm TestFormSpec TestSession TestSessionSpec TestSessionProofs.
Open Scope Z_scope.

Lemma put_length {A} (l : list A) i x : length (put l i x) = length l.
Proof. revert i. induction l as [|y l IH]; intros [|i]; cbn; auto. Qed.
Lemma put_same {A} (l : list A) i x : (i < length l)%nat -> nth_error (put l i x) i = Some x.
Proof. revert i. induction l as [|y l IH]; intros [|i] H; cbn in *; try lia; auto. apply IH. lia. Qed.
Lemma put_other {A} (l : list A) i j x : i <> j -> nth_error (put l i x) j = nth_error l j.
Proof. revert i j. induction l as [|y l IH]; intros [|i] [|j] H; cbn; try congruence; auto. Qed.

Section Proofs.
Variable V P : Type.
Variable form : list str.
Variable parts : str -> option (tpart V).
Variable start_item : nat -> V -> V * result unit.

Notation BranchTarget := (BranchTarget V form parts).
Notation seek := (seek V parts).
Notation start := (start V start_item).
Notation start_part := (start_part V parts start_item).
Notation next_loop := (next_loop V form parts start_item).
Notation search := (search V form parts start_item).
Notation NextQuestion := (NextQuestion V form parts start_item).
Notation CheckPreConditions := (CheckPreConditions V parts).
Notation GetPart := (GetPart V parts).
Notation modes := (modes V parts).
Notation p_kind := (p_kind V).
Notation vars := (vars V).
Notation duration := (@duration V).

(** ** Moving forward *)
Lemma seek_forward t rest pos i : seek t rest pos = Ok i -> (pos <= i <= pos + length rest)%nat.
Proof.
  revert pos. induction rest as [|id rest IH]; intros pos H; cbn [TestSession.seek] in H.
  - injection H as <-. cbn. lia.
  - cbn [length]. destruct (str_eqb t id); [injection H as <-; lia|]. unfold bind in H.
    destruct (is_close id) as [m|]; [|discriminate].
    destruct m.
    + destruct (str_eqb t EXIT_SECTION); [injection H as <-; lia|].
      destruct (str_eqb t EXIT_TESTPART).
      * destruct (GetPart (tl id)) as [q|]; [|discriminate].
        destruct (p_kind q); [injection H as <-; lia| |]; apply IH in H; lia.
      * apply IH in H. lia.
    + apply IH in H. lia.
Qed.

Lemma BranchTarget_forward q v i : BranchTarget q v = Ok i -> (q < i <= length form)%nat.
Proof.
  unfold TestSession.BranchTarget, bind. intros H.
  destruct (index form q) as [id|] eqn:Ei; [|discriminate].
  assert (Hq : (q < length form)%nat).
  { unfold index in Ei. apply nth_error_Some. destruct (nth_error form q); [discriminate|discriminate]. }
  destruct (is_close id) as [m|]; [|discriminate].
  destruct (GetPart (if m then tl id else id)) as [p|]; [|discriminate].
  destruct (GetBranchTarget V parts p v) as [[t|]|]; [| |discriminate].
  - destruct (str_eqb t EXIT_TEST); [injection H as <-; lia|].
    apply seek_forward in H. rewrite skipn_length in H. lia.
  - injection H as <-. lia.
Qed.

Lemma next_loop_ends fuel iQ v : (length form - iQ < fuel)%nat -> next_loop fuel iQ v <> None.
Proof.
  revert iQ v. induction fuel as [|f IH]; intros iQ v H; [lia|]. cbn [TestSession.next_loop].
  destruct (nth_error form iQ) as [id|] eqn:En; [|discriminate].
  assert (Hl : (iQ < length form)%nat) by (apply nth_error_Some; congruence).
  destruct (is_close id) as [[|]|]; [| |discriminate].
  - destruct (BranchTarget iQ v) as [i|] eqn:Eb; [|discriminate]. apply BranchTarget_forward in Eb.
    apply IH. lia.
  - destruct (GetPart id) as [p|]; [|discriminate].
    destruct (CheckPreConditions p v) as [[|]|]; [| |discriminate].
    + destruct (p_kind p) as [[|] ind| |].
      * apply IH. lia.
      * destruct (start_part (close id) (skipn (S iQ) form) (S iQ) v) as [v1 [u|]]; [|discriminate].
        apply IH. lia.
      * apply IH. lia.
      * destruct (modes p) as [[[|] ind]|]; try discriminate.
        destruct (start iQ v) as [v1 [u|]]; discriminate.
    + apply IH. lia.
Qed.

(** ** What the search does to the durations *)
Definition fresh (iQ : nat) (v v' : vars) : Prop :=
  length (dur V v') = length (dur V v) /\
  forall k, duration v' k = duration v k \/
    ((iQ <= k)%nat /\ duration v' k = Some 0 /\
     exists id p, nth_error form k = Some id /\ parts id = Some p /\ p_kind p = KItem /\ is_close id = Ok false).
Lemma fresh_refl iQ v : fresh iQ v v.
Proof. split; auto. Qed.
Lemma fresh_trans i j a b c : (i <= j)%nat -> fresh i a b -> fresh j b c -> fresh i a c.
Proof.
  intros Hij [A1 A2] [B1 B2]. split; [congruence|]. intros k.
  destruct (B2 k) as [->|(H1 & H2 & H3)]; [apply A2|]. right. split; [lia|]. auto.
Qed.
Lemma start_fresh iQ v v' r id p : (iQ < length (dur V v))%nat -> nth_error form iQ = Some id -> parts id = Some p ->
  p_kind p = KItem -> is_close id = Ok false -> start iQ v = (v', r) ->
  fresh iQ v v' /\ (r = Ok tt -> duration v' iQ = Some 0).
Proof.
  intros Hl Hn Hp Hk Hc H. unfold TestSession.start in H.
  destruct (start_item iQ (vv V v)) as [w [u|e]]; injection H as <- <-.
  - assert (E : duration (mkVars V w (put (dur V v) iQ (Some 0))) iQ = Some 0).
    { unfold TestSessionSpec.duration. cbn [dur]. rewrite put_same by exact Hl. reflexivity. }
    split; [|auto]. split; [cbn; apply put_length|].
    intros k. destruct (Nat.eq_dec iQ k) as [<-|Hne].
    + right. split; [lia|]. split; [exact E|]. eauto 8.
    + left. unfold TestSessionSpec.duration. cbn [dur]. rewrite put_other by exact Hne. reflexivity.
  - split; [split; [reflexivity|left; reflexivity]|discriminate].
Qed.

Lemma start_part_fresh endId rest pre v v' r :
  form = pre ++ rest -> length (dur V v) = length form ->
  start_part endId rest (length pre) v = (v', r) -> fresh (length pre) v v'.
Proof.
  revert pre v. induction rest as [|id rest IH]; intros pre v Hf Hl H; cbn [TestSession.start_part] in H.
  - injection H as <- <-. apply fresh_refl.
  - destruct (str_eqb id endId); [injection H as <- <-; apply fresh_refl|].
    assert (Hf' : form = (pre ++ [id]) ++ rest) by (rewrite <- app_assoc; exact Hf).
    assert (Hlen : length (pre ++ [id]) = S (length pre)) by (rewrite app_length; cbn; lia).
    destruct (is_close id) as [[|]|] eqn:Ec; [| |injection H as <- <-; apply fresh_refl].
    + rewrite <- Hlen in H. apply IH in H; [|exact Hf'|exact Hl].
      eapply fresh_trans; [|apply fresh_refl|exact H]. lia.
    + unfold TestSession.GetPart in H.
      destruct (parts id) as [p|] eqn:Ep; [|injection H as <- <-; apply fresh_refl].
      assert (Hrec : forall v1, fresh (length pre) v v1 -> start_part endId rest (S (length pre)) v1 = (v', r) ->
         fresh (length pre) v v').
      { intros v1 Hv1 H1. rewrite <- Hlen in H1. apply IH in H1; [|exact Hf'|destruct Hv1; congruence].
        eapply fresh_trans; [|exact Hv1|exact H1]. lia. }
      destruct (p_kind p) eqn:Ek; try (apply (Hrec v (fresh_refl _ _) H)).
      destruct (start (length pre) v) as [v1 r1] eqn:Es.
      assert (Hn : nth_error form (length pre) = Some id).
      { rewrite Hf, nth_error_app2 by lia. rewrite Nat.sub_diag. reflexivity. }
      assert (Hlt : (length pre < length (dur V v))%nat).
      { rewrite Hl, Hf, app_length. cbn. lia. }
      destruct (start_fresh _ _ _ _ _ _ Hlt Hn Ep Ek Ec Es) as [Hf1 _].
      destruct r1 as [u|e]; [apply (Hrec v1 Hf1 H)|]. injection H as <- <-. exact Hf1.
Qed.

(** ** The result of the search *)
Definition presented (v v' : vars) (j : nat) : Prop :=
  exists id p v0, nth_error form j = Some id /\ is_close id = Ok false /\ parts id = Some p /\
    p_kind p = KItem /\ CheckPreConditions p v0 = Ok true /\ start j v0 = (v', Ok tt).

Lemma next_loop_spec fuel iQ v v' r :
  length (dur V v) = length form -> next_loop fuel iQ v = Some (v', r) ->
  fresh iQ v v' /\
  (forall j, r = Ok (Some j) -> (iQ <= j < length form)%nat /\ presented v v' j /\ duration v' j = Some 0).
Proof.
  revert iQ v. induction fuel as [|f IH]; intros iQ v Hl H; [discriminate|]. cbn [TestSession.next_loop] in H.
  assert (Hbase : forall e, Some (v, @Err (option nat) e) = Some (v', r) -> fresh iQ v v' /\
    (forall j, r = Ok (Some j) -> (iQ <= j < length form)%nat /\ presented v v' j /\ duration v' j = Some 0)).
  { intros e E. injection E as <- <-. split; [apply fresh_refl|discriminate]. }
  assert (Hrec : forall i v1, (iQ < i)%nat -> fresh iQ v v1 -> next_loop f i v1 = Some (v', r) -> fresh iQ v v' /\
    (forall j, r = Ok (Some j) -> (iQ <= j < length form)%nat /\ presented v v' j /\ duration v' j = Some 0)).
  { intros i v1 Hi Hf1 E. apply IH in E as [E1 E2]; [|destruct Hf1; congruence]. split.
    - eapply fresh_trans; [|exact Hf1|exact E1]. lia.
    - intros j Hj. destruct (E2 j Hj) as (A & B & C). split; [lia|]. auto. }
  destruct (nth_error form iQ) as [id|] eqn:En.
  2:{ injection H as <- <-. split; [apply fresh_refl|discriminate]. }
  assert (Hlt : (iQ < length form)%nat) by (apply nth_error_Some; congruence).
  destruct (is_close id) as [[|]|] eqn:Ec; [| |eapply Hbase, H].
  - destruct (BranchTarget iQ v) as [i|] eqn:Eb; [|eapply Hbase, H]. apply BranchTarget_forward in Eb.
    apply (Hrec i v); [lia|apply fresh_refl|exact H].
  - unfold TestSession.GetPart in H. destruct (parts id) as [p|] eqn:Ep; [|eapply Hbase, H].
    destruct (CheckPreConditions p v) as [[|]|] eqn:Epc; [| |eapply Hbase, H].
    2:{ apply (Hrec (S iQ) v); [lia|apply fresh_refl|exact H]. }
    destruct (p_kind p) as [[|] ind| |] eqn:Ek.
    + apply (Hrec (S iQ) v); [lia|apply fresh_refl|exact H].
    + destruct (start_part (close id) (skipn (S iQ) form) (S iQ) v) as [v1 r1] eqn:Es.
      assert (Hf1 : fresh iQ v v1).
      { assert (Hpre : form = firstn (S iQ) form ++ skipn (S iQ) form) by (symmetry; apply firstn_skipn).
        assert (Hlp : length (firstn (S iQ) form) = S iQ) by (rewrite firstn_length; lia).
        rewrite <- Hlp in Es at 2. apply (start_part_fresh _ _ _ _ _ _ Hpre Hl) in Es. rewrite Hlp in Es.
        eapply fresh_trans; [|apply fresh_refl|exact Es]. lia. }
      destruct r1 as [u|e].
      * apply (Hrec (S iQ) v1); [lia|exact Hf1|exact H].
      * injection H as <- <-. split; [exact Hf1|discriminate].
    + apply (Hrec (S iQ) v); [lia|apply fresh_refl|exact H].
    + destruct (modes p) as [[[|] ind]|] eqn:Em.
      * destruct (start iQ v) as [v1 r1] eqn:Es.
        assert (Hlv : (iQ < length (dur V v))%nat) by lia.
        destruct (start_fresh _ _ _ _ _ _ Hlv En Ep Ek Ec Es) as [Hf1 Hd].
        destruct r1 as [u|e]; injection H as <- <-; (split; [exact Hf1|]); [|discriminate].
        intros j Hj. injection Hj as <-. split; [lia|]. split; [|apply Hd; destruct u; reflexivity].
        exists id, p, v. destruct u. auto 8.
      * exfalso. unfold TestSession.CheckPreConditions in Epc. rewrite Ek, Em in Epc. discriminate.
      * eapply Hbase, H.
Qed.

Lemma search_spec iQ v v' r :
  length (dur V v) = length form -> search iQ v = (v', r) ->
  fresh iQ v v' /\
  (forall j, r = Ok (Some j) -> (iQ <= j < length form)%nat /\ presented v v' j /\ duration v' j = Some 0).
Proof.
  intros Hl H. unfold TestSession.search in H.
  destruct (next_loop (S (length form)) iQ v) as [x|] eqn:E.
  - subst x. apply next_loop_spec in E; assumption.
  - exfalso. revert E. apply next_loop_ends. lia.
Qed.

Lemma NextQuestion_spec s s' r :
  length (dur V (s_vars V s)) = length form -> NextQuestion s = (s', r) ->
  match s_q V s with
  | None => s' = s
  | Some i =>
      fresh (S i) (s_vars V s) (s_vars V s') /\
      (match r with
       | Err _ => s_q V s' = Some i
       | Ok _ => s_q V s' = None \/
           exists j, s_q V s' = Some j /\ (i < j < length form)%nat /\
             presented (s_vars V s) (s_vars V s') j /\ duration (s_vars V s') j = Some 0
       end)
  end.
Proof.
  intros Hl H. unfold TestSession.NextQuestion in H. destruct (s_q V s) as [i|] eqn:Eq.
  2:{ injection H as <- _. reflexivity. }
  destruct (match i with O => Ok 1%nat | _ => BranchTarget i (s_vars V s) end) as [iQ|e] eqn:Eb.
  - assert (Hi : (i < iQ)%nat).
    { destruct i as [|i]; [injection Eb as <-; lia|]. apply BranchTarget_forward in Eb. lia. }
    destruct (search iQ (s_vars V s)) as [v r1] eqn:Es. apply search_spec in Es as [Hf Hj]; [|exact Hl].
    assert (Hf' : fresh (S i) (s_vars V s) v).
    { eapply fresh_trans; [|apply fresh_refl|exact Hf]. lia. }
    destruct r1 as [[j|]|e]; injection H as <- <-; cbn; (split; [exact Hf'|]).
    + right. destruct (Hj j eq_refl) as (A & B & C). exists j. split; [reflexivity|]. split; [lia|]. auto.
    + left. reflexivity.
    + exact Eq.
  - injection H as <- <-. split; [apply fresh_refl|exact Eq].
Qed.

(** ** Linear tests without branch rules *)
Definition holds (j : nat) (v : vars) (b : bool) : Prop :=
  exists id p, nth_error form j = Some id /\ parts id = Some p /\ all_hold V (p_pre V p) v = Ok b.

Lemma next_loop_linear fuel iQ v v' r :
  (forall id p, parts id = Some p ->
     match p_kind p with KPart l _ => l = true /\ p_pre V p = [] | KSection => p_pre V p = [] | KItem => True end) ->
  (forall id p, In id form -> is_close id = Ok true -> parts (tl id) = Some p -> p_rules V p = []) ->
  next_loop fuel iQ v = Some (v', r) ->
  (forall q, r = Ok q ->
   forall k id, (iQ <= k)%nat -> match q with Some j => (k < j)%nat | None => True end ->
     item_at form parts k id -> holds k v false) /\
  (forall j, r = Ok (Some j) -> exists id, item_at form parts j id) /\
  (forall j, r = Ok (Some j) -> holds j v true).
Proof.
  intros Hsimple Hrules. revert iQ. induction fuel as [|f IH]; intros iQ H; [discriminate|].
  cbn [TestSession.next_loop] in H.
  assert (Herr : forall w e, Some (w, @Err (option nat) e) = Some (v', r) ->
    (forall q, r = Ok q -> forall k id, (iQ <= k)%nat -> match q with Some j => (k < j)%nat | None => True end ->
      item_at form parts k id -> holds k v false) /\
    (forall j, r = Ok (Some j) -> exists id, item_at form parts j id) /\
    (forall j, r = Ok (Some j) -> holds j v true)).
  { intros w e E. injection E as <- <-. split; [|split]; discriminate. }
  destruct (nth_error form iQ) as [id|] eqn:En.
  2:{ injection H as <- <-. apply nth_error_None in En. split; [|split]; try discriminate.
      intros q _ k id Hk _ [Hn _]. assert (k < length form)%nat by (apply nth_error_Some; congruence). lia. }
  assert (Hstep : next_loop f (S iQ) v = Some (v', r) ->
    (forall id, item_at form parts iQ id -> holds iQ v false) ->
    (forall q, r = Ok q -> forall k id, (iQ <= k)%nat -> match q with Some j => (k < j)%nat | None => True end ->
      item_at form parts k id -> holds k v false) /\
    (forall j, r = Ok (Some j) -> exists id, item_at form parts j id) /\
    (forall j, r = Ok (Some j) -> holds j v true)).
  { intros E Hi. apply IH in E as (E1 & E2 & E3). split; [|split; assumption].
    intros q Hq k id' Hk Hj Hit. destruct (Nat.eq_dec iQ k) as [<-|Hne]; [eauto|].
    apply (E1 q Hq k id'); [lia|exact Hj|exact Hit]. }
  destruct (is_close id) as [[|]|] eqn:Ec; [| |eapply Herr, H].
  - unfold TestSession.BranchTarget, index in H. rewrite En in H. cbn [bind] in H. rewrite Ec in H.
    cbn [bind] in H. unfold TestSession.GetPart in H.
    destruct (parts (tl id)) as [p|] eqn:Ep; [|eapply Herr, H]. cbn [bind] in H.
    unfold GetBranchTarget in H. pose proof (Hrules id p (nth_error_In _ _ En) Ec Ep) as Hr. rewrite Hr in H.
    assert (Hnot : forall id0, item_at form parts iQ id0 -> holds iQ v false).
    { intros id0 [Hn [Hpl _]]. rewrite En in Hn. injection Hn as <-. destruct id as [|c id]; [destruct Hpl|].
      cbn in Ec, Hpl. injection Ec as Ec. lia. }
    destruct (p_kind p); cbn [first_rule bind] in H.
    + apply Hstep; assumption.
    + destruct (modes p) as [[[|] ?]|]; cbn [bind first_rule] in H; try (eapply Herr, H); apply Hstep; assumption.
    + destruct (modes p) as [[[|] ?]|]; cbn [bind first_rule] in H; try (eapply Herr, H); apply Hstep; assumption.
  - unfold TestSession.GetPart in H. destruct (parts id) as [p|] eqn:Ep; [|eapply Herr, H].
    pose proof (Hsimple _ _ Ep) as Hs.
    assert (Hnot : p_kind p <> KItem -> forall id0, item_at form parts iQ id0 -> holds iQ v false).
    { intros Hk id0 [Hn (_ & p0 & Hp & Hk0)]. rewrite En in Hn. injection Hn as <-. congruence. }
    destruct (CheckPreConditions p v) as [[|]|] eqn:Epc; [| |eapply Herr, H].
    + destruct (p_kind p) as [l ind| |] eqn:Ek.
      * destruct Hs as [-> _]. apply Hstep; [exact H|]. apply Hnot. congruence.
      * apply Hstep; [exact H|]. apply Hnot. congruence.
      * destruct (modes p) as [[[|] ind]|] eqn:Em.
        -- destruct (start iQ v) as [v1 [u|e]]; [|eapply Herr, H]. injection H as <- <-.
           split; [|split].
           ++ intros q Hq. injection Hq as <-. intros k id0 Hk Hlt. lia.
           ++ intros j Hj. injection Hj as <-. exists id. split; [exact En|]. split.
              ** destruct id as [|c id]; [discriminate|]. cbn in Ec |- *. injection Ec as Ec. lia.
              ** exists p. auto.
           ++ intros j Hj. injection Hj as <-. exists id, p. split; [exact En|]. split; [exact Ep|].
              unfold TestSession.CheckPreConditions in Epc. rewrite Ek, Em in Epc. exact Epc.
        -- unfold TestSession.CheckPreConditions in Epc. rewrite Ek, Em in Epc. discriminate.
        -- eapply Herr, H.
    + apply Hstep; [exact H|]. intros id0 [Hn (Hpl & p0 & Hp & Hk0)]. rewrite En in Hn. injection Hn as <-.
      assert (p0 = p) by congruence. subst p0.
      unfold TestSession.CheckPreConditions in Epc. rewrite Hk0 in Epc.
      destruct (modes p) as [[l ind]|] eqn:Em; [|discriminate]. cbn [bind] in Epc.
      assert (l = true).
      { unfold TestSession.modes in Em. destruct (parts (p_home V p)) as [[k0 h pr ru]|] eqn:Eh; [|discriminate].
        pose proof (Hsimple _ _ Eh) as Hh. cbn in Hh. destruct k0; try discriminate. injection Em as -> ->. tauto. }
      subst l. exists id, p. auto.
Qed.

End Proofs.
