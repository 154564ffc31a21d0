(** Walks through the pages of a SQL collection. *)
From Coq Require Import Lia Zify Permutation Sorted.
From Verif Require Import Py Iso HttpCore HttpSpec HttpProofs3 OdPageSpec SqlPage SqlPageSpec SqlPageProofs.
Open Scope Z_scope.
Open Scope list_scope.

Lemma SS_app {A} (Rel : A -> A -> Prop) l1 l2 : StronglySorted Rel l1 -> StronglySorted Rel l2 ->
  (forall a b, In a l1 -> In b l2 -> Rel a b) -> StronglySorted Rel (l1 ++ l2).
Proof.
  intros S1 S2 H. induction S1 as [|x l1 S1 IH F]; [exact S2|]. cbn [app]. constructor.
  - apply IH. intros a b Ha. apply H. now right.
  - apply Forall_app. split; [exact F|]. apply Forall_forall. intros b Hb. apply H; [now left|exact Hb].
Qed.
Lemma SS_split {A} (Rel : A -> A -> Prop) l1 l2 : StronglySorted Rel (l1 ++ l2) ->
  StronglySorted Rel l1 /\ StronglySorted Rel l2 /\ forall a b, In a l1 -> In b l2 -> Rel a b.
Proof.
  induction l1 as [|x l1 IH]; cbn [app]; intros S.
  - split; [constructor|]. split; [exact S|]. intros a b [].
  - apply StronglySorted_inv in S as [S F]. destruct (IH S) as (A1 & A2 & A3). apply Forall_app in F as [F1 F2].
    split; [now constructor|]. split; [exact A2|]. intros a b [<-|Ha] Hb; [exact (proj1 (Forall_forall _ _) F2 b Hb)|now apply A3].
Qed.

Section Sql.
Context {R V : Type}.
Variable vals : R -> list (option V).
Variable vcmp : V -> V -> comparison.
Variable nulls_first : bool.
Hypothesis P : preorder vcmp.
Hypothesis Anti : forall a b, vcmp a b = Eq -> a = b.
Variable dirs : list bool.
Hypothesis Dirs : dirs <> [].
Variable as_int : V -> option Z.
Variable of_int : Z -> V.
Variable size_of : V -> Z.
Notation db := (database vals vcmp nulls_first dirs).
Notation precedes := (precedes vcmp dirs).
Notation lex := (lex vcmp nulls_first).

(** The rows after a token, in order *)
Definition token_ok (t : option (list (option V))) : Prop :=
  match t with Some t => length t = length dirs /\ ~ In None t | None => True end.
Definition after (t : option (list (option V))) (r : R) : Prop :=
  match t with Some t => precedes t (vals r) | None => True end.
Definition rows (t : option (list (option V))) (table : list R) : list R :=
  match t with
  | None => db None table
  | Some t => match WhereSkiptokenClause dirs t with Ok ts => db (Some ts) table | Err _ => [] end
  end.
Lemma rows_In t table r : good_table vals dirs table -> token_ok t -> (In r (rows t table) <-> In r table /\ after t r).
Proof.
  intros (_ & G & _) Ht. destruct t as [t|]; cbn [rows after token_ok] in *.
  - destruct Ht as [Hl Hn]. destruct (parse_clause dirs t Dirs Hl) as (ts & E1 & E2). rewrite E1. unfold database. rewrite sort_perm, filter_In, E2.
    split; intros [Hr H]; (split; [exact Hr|]); destruct (G r Hr) as [Lr Nr];
      destruct (key_cond_meaning vals vcmp P Anti dirs r 0 [] (vals r) t Dirs eq_refl eq_refl Lr Hl Nr Hn) as (b & Hb & Bb); rewrite Hb in *.
    + apply Bb. destruct b; [reflexivity|discriminate].
    + apply Bb in H. rewrite H. reflexivity.
  - unfold database. rewrite sort_perm, filter_In. tauto.
Qed.
Lemma rows_sorted t table : good_table vals dirs table -> token_ok t ->
  StronglySorted (fun a b => precedes (vals a) (vals b)) (rows t table) /\ NoDup (rows t table).
Proof.
  intros G Ht. pose proof (fun r => rows_In t table r G Ht) as RI. destruct G as (N & G & U).
  assert (X : forall ts, NoDup (db ts table) /\ StronglySorted (le_ (fun a b => lex dirs (vals a) (vals b))) (db ts table)).
  { intros ts. unfold database. split.
    - eapply Permutation_NoDup; [symmetry; apply sort_perm|]. apply NoDup_filter, N.
    - apply sort_sorted. apply (map_preorder vals), lex_preorder, P. }
  assert (Y : NoDup (rows t table) /\ StronglySorted (le_ (fun a b => lex dirs (vals a) (vals b))) (rows t table)).
  { destruct t as [t|]; [|apply X]. cbn [rows]. destruct (WhereSkiptokenClause dirs t); [apply X|split; constructor]. }
  destruct Y as [ND SS]. split; [|exact ND].
  assert (In' : forall r, In r (rows t table) -> In r table) by (intros r Hr; apply RI in Hr; tauto). clear RI X.
  induction SS as [|a l SS IH F]; [constructor|]. apply NoDup_cons_iff in ND as [Na ND]. constructor.
  - apply IH; [exact ND|]. intros r Hr. apply In'. now right.
  - rewrite Forall_forall in F |- *. intros b Hb. specialize (F b Hb).
    destruct (G a (In' a (or_introl eq_refl))) as [La Ka]. destruct (G b (In' b (or_intror Hb))) as [Lb Kb].
    apply (lex_precedes vcmp nulls_first P Anti dirs); try assumption.
    unfold le_ in F. destruct (lex dirs (vals a) (vals b)) eqn:Ex; [|reflexivity|congruence].
    apply lex_eq in Ex; [|exact Anti|exact La|exact Lb]. exfalso. apply Na.
    rewrite (U a b); [exact Hb|apply In'; now left|apply In'; now right|exact Ex].
Qed.
Lemma precedes_trans a b c : length a = length dirs -> length b = length dirs -> length c = length dirs ->
  ~ In None a -> ~ In None b -> ~ In None c -> precedes a b -> precedes b c -> precedes a c.
Proof.
  intros La Lb Lc Na Nb Nc H1 H2. apply (lex_precedes vcmp nulls_first P Anti) in H1; try assumption. apply (lex_precedes vcmp nulls_first P Anti) in H2; try assumption.
  apply (lex_precedes vcmp nulls_first P Anti); try assumption. apply (pre_lt_le _ (lex_preorder vcmp nulls_first P dirs) a b c H1). congruence.
Qed.

(** ** One page *)
Lemma page_loop_spec (rs : list R) : forall sk m, sk = None \/ sk = Some 0 -> 1 <= m ->
  page_loop rs sk None (Some m) =
  (firstn (Z.to_nat m) rs, match nth_error rs (Z.to_nat m - 1) with Some r => AtTopmax r | None => NoMore end).
Proof.
  induction rs as [|r rs IH]; intros sk m Hs Hm; cbn [page_loop].
  - rewrite firstn_nil. destruct (Z.to_nat m - 1)%nat; reflexivity.
  - assert (X : (if m - 1 <? 1 then ([r], AtTopmax r)
                 else let '(l, e) := page_loop rs sk None (Some (m - 1)) in (r :: l, e)) =
                (firstn (Z.to_nat m) (r :: rs), match nth_error (r :: rs) (Z.to_nat m - 1) with Some r => AtTopmax r | None => NoMore end)).
    { destruct (m - 1 <? 1) eqn:E.
      - replace (Z.to_nat m) with 1%nat by lia. reflexivity.
      - rewrite IH by (assumption || lia). replace (Z.to_nat m) with (S (Z.to_nat (m - 1))) by lia. cbn [firstn].
        replace (S (Z.to_nat (m - 1)) - 1)%nat with (S (Z.to_nat (m - 1) - 1)) by lia. reflexivity. }
    destruct Hs as [-> | ->]; exact X.
Qed.
Variable m : Z.
Hypothesis Hm : 1 <= m.
Definition short (table : list R) : Prop := forall r, In r table -> token_length size_of (vals r) <= 512.
Notation gen := (pageGenerator vals dirs of_int size_of db).
Lemma generate b table s t : good_table vals dirs table -> short table -> token_ok t ->
  q_top s = None -> q_topmax s = Some m -> q_token s = t -> q_skip s = None \/ q_skip s = Some 0 ->
  gen b table s =
  (firstn (Z.to_nat m) (rows t table),
   Ok match nth_error (rows t table) (Z.to_nat m - 1) with
      | Some r => if b then mkSql None (Some 0) (Some (vals r)) (Some (vals r)) (Some m)
                  else mkSql None (q_skip s) t (Some (vals r)) (Some m)
      | None => if b then mkSql (Some 0) (Some 0) t (q_next s) (Some m) else s
      end).
Proof.
  intros G Sh Ht E1 E2 E3 E4. unfold pageGenerator. rewrite E1, E3, E2.
  assert (X : exists c, match t with None => Ok None | Some t => c <- WhereSkiptokenClause dirs t ;; Ok (Some c) end = Ok c /\ db c table = rows t table).
  { destruct t as [t|]; [|exists None; split; reflexivity]. destruct Ht as [Hl _]. destruct (parse_clause dirs t Dirs Hl) as (ts & X1 & _).
    cbn [rows]. rewrite X1. exists (Some ts). split; reflexivity. }
  destruct X as (c & -> & ->). rewrite page_loop_spec by assumption. f_equal.
  destruct (nth_error (rows t table) (Z.to_nat m - 1)) as [r|] eqn:En; [|reflexivity].
  apply nth_error_In in En. apply rows_In in En as [En _]; try assumption. unfold next_token.
  specialize (Sh r En). destruct (token_length size_of (vals r) >? 512) eqn:El; [lia|]. reflexivity.
Qed.

(** ** Walks *)
Fixpoint awalk (T : nat -> list R) (n : nat) (t : option (list (option V))) (k : nat) : list (list R) :=
  match k with
  | O => []
  | S k' =>
      firstn (Z.to_nat m) (rows t (T n)) ::
      match nth_error (rows t (T n)) (Z.to_nat m - 1) with
      | Some r => awalk T (S n) (Some (vals r)) k'
      | None => []
      end
  end.
Section History.
Variable T : nat -> list R.
Hypothesis Good : forall n, good_table vals dirs (T n).
Hypothesis Short : forall n, short (T n).
Lemma token_of n t r j : token_ok t -> nth_error (rows t (T n)) j = Some r -> token_ok (Some (vals r)) /\ In r (T n) /\ after t r.
Proof.
  intros Ht H. apply nth_error_In in H. apply rows_In in H as [H A]; [|apply Good|exact Ht]. split; [|tauto].
  destruct (Good n) as (_ & G & _). exact (G r H).
Qed.
Lemma requests_walk k : forall n t, token_ok t ->
  sql_requests vals dirs as_int of_int size_of db (Some m) T n t k = (awalk T n t k, None).
Proof.
  induction k as [|k IH]; intros n t Ht; cbn [sql_requests awalk]; [reflexivity|].
  assert (X : SetPage dirs as_int None None t (Some m) = Ok (mkSql None None t None (Some m))).
  { destruct t as [t|]; [|reflexivity]. cbn [SetPage]. destruct Ht as [Hl _]. rewrite Hl.
    destruct (Nat.eqb_spec (length dirs) (S (length dirs))); [lia|]. now rewrite Nat.eqb_refl. }
  rewrite X, (generate _ _ _ t) by (auto || reflexivity).
  destruct (nth_error (rows t (T n)) (Z.to_nat m - 1)) as [r|] eqn:En; [|reflexivity].
  destruct (token_of _ _ _ _ Ht En) as ([Hl Hn] & _). cbn [NextSkipToken q_next].
  destruct (vals r) as [|v l] eqn:Ev; [cbn in Hl; destruct dirs; [congruence|discriminate]|].
  rewrite <- Ev, IH by (rewrite Ev; split; assumption). reflexivity.
Qed.
Lemma ended_pages k : forall n sk t nx, sql_pages vals dirs of_int size_of db T n (mkSql (Some 0) sk t nx (Some m)) k = (repeat [] k, None).
Proof.
  induction k as [|k IH]; intros n sk t nx; cbn [sql_pages repeat]; [reflexivity|].
  transitivity (let '(ls, e) := sql_pages vals dirs of_int size_of db T (S n) (mkSql (Some 0) sk t nx (Some m)) k in ((@nil R) :: ls, e)); [reflexivity|].
  rewrite IH. reflexivity.
Qed.
Lemma pages_walk k : forall n s t, token_ok t -> q_top s = None -> q_topmax s = Some m -> q_token s = t -> q_skip s = None \/ q_skip s = Some 0 ->
  sql_pages vals dirs of_int size_of db T n s k =
  (awalk T n t k ++ repeat [] (k - length (awalk T n t k)), None).
Proof.
  induction k as [|k IH]; intros n s t Ht E1 E2 E3 E4; cbn [sql_pages awalk]; [reflexivity|].
  rewrite (generate _ _ _ t) by auto.
  destruct (nth_error (rows t (T n)) (Z.to_nat m - 1)) as [r|] eqn:En.
  - destruct (token_of _ _ _ _ Ht En) as (Hr & _). rewrite (IH _ _ (Some (vals r))) by (auto || reflexivity). reflexivity.
  - rewrite ended_pages. cbn [app length]. replace (S k - 1)%nat with k by lia. reflexivity.
Qed.

(** What a walk gives *)
Lemma walk_pages k : forall n t, token_ok t -> forall i l, nth_error (awalk T n t k) i = Some l ->
  incl l (T (n + i)) /\ (length l <= Z.to_nat m)%nat.
Proof.
  induction k as [|k IH]; intros n t Ht i l H; cbn [awalk] in H; [destruct i; discriminate|]. destruct i as [|i].
  - injection H as <-. rewrite Nat.add_0_r. split; [|rewrite firstn_length; lia]. intros r Hr.
    assert (In r (rows t (T n))) as Hi by (rewrite <- (firstn_skipn (Z.to_nat m)); apply in_or_app; now left).
    apply rows_In in Hi; [tauto|apply Good|exact Ht].
  - cbn [nth_error] in H. destruct (nth_error (rows t (T n)) (Z.to_nat m - 1)) as [r|] eqn:En; [|destruct i; discriminate].
    destruct (token_of _ _ _ _ Ht En) as (Hr & _). destruct (IH _ _ Hr _ _ H) as [A B]. replace (n + S i)%nat with (S n + i)%nat by lia. tauto.
Qed.
Lemma last_of_page (rs : list R) (r : R) : nth_error rs (Z.to_nat m - 1) = Some r -> exists before rest,
  rs = before ++ r :: rest /\ firstn (Z.to_nat m) rs = before ++ [r] /\ length (firstn (Z.to_nat m) rs) = Z.to_nat m.
Proof.
  intros H. apply nth_error_split in H as (before & rest & -> & L). exists before, rest.
  assert (F : firstn (Z.to_nat m) (before ++ r :: rest) = before ++ [r]).
  { rewrite firstn_app, firstn_all2 by lia. rewrite L. replace (Z.to_nat m - (Z.to_nat m - 1))%nat with 1%nat by lia. reflexivity. }
  split; [reflexivity|]. split; [exact F|]. rewrite F, app_length. cbn. lia.
Qed.
Lemma walk_sorted k : forall n t, token_ok t ->
  StronglySorted (fun a b => precedes (vals a) (vals b)) (concat (awalk T n t k)) /\
  (forall r, In r (concat (awalk T n t k)) -> after t r /\ exists i, In r (T i)).
Proof.
  induction k as [|k IH]; intros n t Ht; cbn [awalk concat]; [split; [constructor|intros r []]|].
  destruct (rows_sorted t (T n) (Good n) Ht) as [SS ND].
  assert (InR : forall r, In r (firstn (Z.to_nat m) (rows t (T n))) -> after t r /\ exists i, In r (T i)).
  { intros r Hr. assert (In r (rows t (T n))) as Hi by (rewrite <- (firstn_skipn (Z.to_nat m)); apply in_or_app; now left).
    apply rows_In in Hi as [Hi Ha]; [|apply Good|exact Ht]. split; [exact Ha|now exists n]. }
  destruct (nth_error (rows t (T n)) (Z.to_nat m - 1)) as [r0|] eqn:En.
  - destruct (token_of _ _ _ _ Ht En) as (Hr & HrT & Hra). destruct (IH (S n) _ Hr) as [I1 I2].
    destruct (last_of_page _ _ En) as (bf & rest & Er & Ef & _).
    assert (Lt : forall a, In a (concat (awalk T (S n) (Some (vals r0)) k)) -> precedes (vals r0) (vals a)) by (intros a Ha; apply I2 in Ha; apply Ha).
    assert (GG : forall i r, In r (T i) -> length (vals r) = length dirs /\ ~ In None (vals r)) by (intros i r H; destruct (Good i) as (_ & G & _); apply G, H).
    split.
    + rewrite Ef. rewrite Er in SS. replace (bf ++ r0 :: rest) with ((bf ++ [r0]) ++ rest) in SS by (rewrite <- app_assoc; reflexivity).
      apply SS_split in SS as (S1 & _ & _). apply SS_app; [exact S1|exact I1|].
      intros a b Ha Hb. apply SS_split in S1 as (_ & _ & S3). apply in_app_or in Ha as [Ha|[<-|[]]]; [|apply Lt, Hb].
      assert (a_r0 := S3 a r0 Ha (or_introl eq_refl)).
      assert (exists i, In a (T i)) as [ia Hia].
      { assert (In a (firstn (Z.to_nat m) (rows t (T n)))) as Q by (rewrite Ef; apply in_or_app; now left). apply InR in Q. tauto. }
      destruct (I2 b Hb) as [_ [ib Hib]].
      destruct (GG _ _ Hia), (GG _ _ Hib), (GG _ _ HrT).
      apply (precedes_trans _ (vals r0)); try assumption. apply Lt, Hb.
    + intros r Hi. apply in_app_or in Hi as [Hi|Hi]; [apply InR, Hi|]. destruct (I2 r Hi) as [A B]. split; [|exact B].
      destruct t as [t|]; [|exact I]. cbn [after token_ok] in *. destruct B as [ib Hib]. destruct (GG _ _ Hib), (GG _ _ HrT), Ht.
      apply (precedes_trans _ (vals r0)); assumption.
  - cbn [concat]. rewrite app_nil_r. split; [|exact InR].
    rewrite <- (firstn_skipn (Z.to_nat m) (rows t (T n))) in SS. apply SS_split in SS. tauto.
Qed.
Lemma walk_complete k : forall n t, token_ok t -> forall r, (forall i, In r (T i)) -> after t r ->
  In r (concat (awalk T n t k)) \/
  (length (awalk T n t k) = k /\ Forall (fun l => length l = Z.to_nat m) (awalk T n t k) /\
   forall r', In r' (concat (awalk T n t k)) -> precedes (vals r') (vals r)).
Proof.
  induction k as [|k IH]; intros n t Ht r Hr Ha; cbn [awalk concat length]; [right; split; [reflexivity|split; [constructor|intros r' []]]|].
  assert (Hin : In r (rows t (T n))) by (apply rows_In; [apply Good|exact Ht|split; [apply Hr|exact Ha]]).
  destruct (rows_sorted t (T n) (Good n) Ht) as [SS _].
  destruct (nth_error (rows t (T n)) (Z.to_nat m - 1)) as [r0|] eqn:En.
  - destruct (last_of_page _ _ En) as (bf & rest & Er & Ef & El).
    rewrite Er in SS, Hin. replace (bf ++ r0 :: rest) with ((bf ++ [r0]) ++ rest) in SS, Hin by (rewrite <- app_assoc; reflexivity).
    apply in_app_or in Hin as [Hin|Hin]; [left; apply in_or_app; left; rewrite Ef; exact Hin|].
    apply SS_split in SS as (_ & _ & S3).
    destruct (token_of _ _ _ _ Ht En) as (Hr0 & _ & _).
    assert (r0_r : precedes (vals r0) (vals r)) by (apply S3; [apply in_or_app; right; now left|exact Hin]).
    destruct (IH (S n) _ Hr0 r Hr r0_r) as [I1|(I1 & I2 & I3)]; [left; apply in_or_app; now right|right].
    split; [f_equal; exact I1|]. split; [constructor; [exact El|exact I2]|].
    intros r' Hr'. apply in_app_or in Hr' as [Hr'|Hr']; [|apply I3, Hr']. apply S3; [rewrite <- Ef; exact Hr'|exact Hin].
  - left. apply in_or_app. left. apply nth_error_None in En. rewrite firstn_all2 by lia. exact Hin.
Qed.
End History.

(** A table that does not change *)
Lemma walk_all L k : good_table vals dirs L -> short L -> (length L < k)%nat -> concat (awalk (fun _ => L) 0 None k) = db None L.
Proof.
  intros G Sh Hk. set (T := fun _ : nat => L).
  assert (GT : forall n, good_table vals dirs (T n)) by (intros; exact G). assert (ST : forall n, short (T n)) by (intros; exact Sh).
  destruct (walk_sorted T GT k 0 None I) as [SS IN]. destruct (rows_sorted None L G I) as [SD ND].
  assert (Irr : forall a, In a L -> ~ precedes (vals a) (vals a)).
  { intros a Ha X. destruct G as (_ & G & _). destruct (G a Ha). apply (lex_precedes vcmp nulls_first P Anti) in X; try assumption.
    rewrite (pre_refl _ (lex_preorder vcmp nulls_first P dirs)) in X. discriminate. }
  assert (NW : forall l, StronglySorted (fun a b => precedes (vals a) (vals b)) l -> incl l L -> NoDup l).
  { intros l S. induction S as [|a l S IH F]; intros Hl; constructor.
    - intros Ha. rewrite Forall_forall in F. apply (Irr a); [apply Hl; now left|apply F, Ha].
    - apply IH. intros x Hx. apply Hl. now right. }
  assert (IL : incl (concat (awalk T 0 None k)) L) by (intros a Ha; apply IN in Ha as [_ [i Hi]]; exact Hi).
  assert (All : incl L (concat (awalk T 0 None k))).
  { intros r Hr. destruct (walk_complete T GT ltac:(assumption) k 0 None I r (fun _ => Hr) I) as [H|(H1 & H2 & _)]; [exact H|exfalso].
    pose proof (NoDup_incl_length (NW _ SS IL) IL) as X.
    assert (Y : forall ls : list (list R), Forall (fun l => length l = Z.to_nat m) ls -> (length ls <= length (concat ls))%nat).
    { induction 1 as [|l ls Hl _ IHl]; [cbn; lia|]. cbn [concat length]. rewrite app_length. lia. }
    specialize (Y _ H2). lia. }
  assert (PM : Permutation (concat (awalk T 0 None k)) (db None L)).
  { apply NoDup_Permutation; [apply NW; assumption|exact ND|]. intros x. pose proof (rows_In None L x G I) as X. cbn [rows after] in X.
    split; intros Hx; [apply X; split; [apply IL, Hx|exact I]|apply All, X, Hx]. }
  assert (LeS : forall l, incl l L -> StronglySorted (fun a b => precedes (vals a) (vals b)) l -> StronglySorted (le_ (fun a b => lex dirs (vals a) (vals b))) l).
  { intros l Hl S. induction S as [|a l S IH F]; constructor; [apply IH; intros x Hx; apply Hl; now right|].
    rewrite Forall_forall in F |- *. intros b Hb. unfold le_. destruct G as (_ & G & _).
    destruct (G a (Hl a (or_introl eq_refl))), (G b (Hl b (or_intror Hb))).
    assert (lex dirs (vals a) (vals b) = Lt) as ->; [|discriminate]. apply (lex_precedes vcmp nulls_first P Anti); try assumption. apply F, Hb. }
  apply (sorted_unique (fun a b => lex dirs (vals a) (vals b)) (map_preorder vals _ (lex_preorder vcmp nulls_first P dirs))); [|exact PM|apply LeS; assumption|].
  - intros a b Ha Hb Hx. destruct G as (_ & G & U). apply IL in Ha. apply IL in Hb. apply U; try assumption. destruct (G a Ha), (G b Hb).
    eapply (lex_eq vcmp nulls_first Anti dirs); eassumption.
  - apply LeS; [|exact SD]. intros x Hx. pose proof (rows_In None L x G I) as X. cbn [rows] in X. apply X in Hx. tauto.
Qed.
End Sql.
