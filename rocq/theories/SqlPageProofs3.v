(** One page of a SQL collection: $top, $skip and the token together. *)
From Coq Require Import Lia Zify Permutation Sorted.
From Verif Require Import Py Iso HttpCore HttpSpec HttpProofs3 OdPageSpec SqlPage SqlPageSpec SqlPageProofs SqlPageProofs2.
Open Scope Z_scope.
Open Scope list_scope.

Lemma firstn_plus {A} (a n : nat) : forall l : list A, firstn a l ++ firstn n (skipn a l) = firstn (a + n) l.
Proof. induction a as [|a IH]; intros l; [reflexivity|]. destruct l as [|x l]; [now rewrite ?firstn_nil|]. cbn [firstn skipn Nat.add app]. now rewrite IH. Qed.
Lemma SS_eq {A} (Rel : A -> A -> Prop) : forall l l', StronglySorted Rel l -> StronglySorted Rel l' -> (forall x, In x l <-> In x l') ->
  (forall x y, In x l -> In y l -> Rel x y -> Rel y x -> False) -> l = l'.
Proof.
  induction l as [|a l IH]; intros [|b l'] S1 S2 E N; [reflexivity|exfalso; apply (E b); now left|exfalso; apply (E a); now left|].
  apply StronglySorted_inv in S1 as [S1 F1]. apply StronglySorted_inv in S2 as [S2 F2]. rewrite Forall_forall in F1, F2.
  assert (a = b).
  { destruct (proj1 (E a) (or_introl eq_refl)) as [X|X]; [congruence|]. destruct (proj2 (E b) (or_introl eq_refl)) as [Y|Y]; [congruence|].
    exfalso. apply (N a b); [now left|now right|now apply F1|now apply F2]. }
  subst b. f_equal. apply IH; auto.
  - intros x. split; intros Hx.
    + destruct (proj1 (E x) (or_intror Hx)) as [X|X]; [|exact X]. subst x. exfalso. apply (N a a); try (now left); now apply F1.
    + destruct (proj2 (E x) (or_intror Hx)) as [X|X]; [|exact X]. subst x. exfalso. apply (N a a); try (now left); now apply F2.
  - intros x y Hx Hy. apply N; now right.
Qed.
Section Sql.
Context {R V : Type}.
Variable vals : R -> list (option V).
Variable vcmp : V -> V -> comparison.
Variable nulls_first : bool.
Hypothesis P : preorder vcmp.
Hypothesis Anti : forall a b, vcmp a b = Eq -> a = b.
Variable dirs : list bool.
Hypothesis Dirs : dirs <> [].
Variable as_int : V -> option Z.
Variable of_int : Z -> V.
Variable size_of : V -> Z.
Notation db := (database vals vcmp nulls_first dirs).
Notation gen := (pageGenerator vals dirs of_int size_of db).
Notation rows := (rows vals vcmp nulls_first dirs).
Notation token_ok := (token_ok dirs).

Lemma loop_skip (rs : list R) : forall n top topmax, 0 <= n -> page_loop rs (Some n) top topmax = page_loop (skipn (Z.to_nat n) rs) (Some 0) top topmax.
Proof.
  induction rs as [|r rs IH]; intros n top topmax Hn; [now rewrite skipn_nil|].
  destruct (Z.eq_dec n 0) as [->|N]; [reflexivity|]. cbn [page_loop]. destruct (Z.eqb_spec n 0) as [|_]; [contradiction|].
  rewrite IH by lia. replace (Z.to_nat n) with (S (Z.to_nat (n - 1))) by lia. reflexivity.
Qed.
Definition positive (x : option Z) : Prop := match x with Some n => 1 <= n | None => True end.
Lemma loop_take (rs : list R) : forall sk top topmax, sk = None \/ sk = Some 0 -> positive top -> positive topmax ->
  fst (page_loop rs sk top topmax) = take_opt top (take_opt topmax rs).
Proof.
  induction rs as [|r rs IH]; intros sk top topmax Hs Ht Hm.
  - unfold take_opt. destruct topmax, top; now rewrite ?firstn_nil.
  - assert (X : fst (page_loop (r :: rs) sk top topmax) =
      match topmax with
      | Some m => if m - 1 <? 1 then [r] else match top with Some t => if t - 1 <? 1 then [r] else r :: fst (page_loop rs sk (Some (t - 1)) (Some (m - 1)))
                                                          | None => r :: fst (page_loop rs sk None (Some (m - 1))) end
      | None => match top with Some t => if t - 1 <? 1 then [r] else r :: fst (page_loop rs sk (Some (t - 1)) None) | None => r :: fst (page_loop rs sk None None) end
      end).
    { destruct Hs as [-> | ->]; cbn [page_loop Z.eqb]; destruct topmax as [m|], top as [t|]; repeat (destruct (_ <? _)); try reflexivity;
        match goal with |- context [page_loop rs ?a ?b ?c] => destruct (page_loop rs a b c) end; reflexivity. }
    rewrite X. clear X. unfold take_opt in *.
    destruct topmax as [m|]; [destruct (Z.ltb_spec (m - 1) 1)|]; cbn [positive] in *.
    + replace (Z.to_nat m) with 1%nat by lia. destruct top as [t|]; [|reflexivity]. cbn [positive] in Ht. replace (Z.to_nat t) with (S (Z.to_nat (t - 1))) by lia. cbn [firstn]. now rewrite firstn_nil.
    + replace (Z.to_nat m) with (S (Z.to_nat (m - 1))) by lia. destruct top as [t|]; [destruct (Z.ltb_spec (t - 1) 1)|]; cbn [positive] in *.
      * replace (Z.to_nat t) with 1%nat by lia. reflexivity.
      * replace (Z.to_nat t) with (S (Z.to_nat (t - 1))) by lia. cbn [firstn]. f_equal. apply IH; cbn [positive]; auto; lia.
      * cbn [firstn]. f_equal. apply (IH sk None (Some (m - 1))); cbn [positive]; auto; lia.
    + destruct top as [t|]; [destruct (Z.ltb_spec (t - 1) 1)|]; cbn [positive] in *.
      * replace (Z.to_nat t) with 1%nat by lia. reflexivity.
      * replace (Z.to_nat t) with (S (Z.to_nat (t - 1))) by lia. cbn [firstn]. f_equal. apply (IH sk (Some (t - 1)) None); cbn [positive]; auto; lia.
      * f_equal. apply (IH sk None None); cbn [positive]; auto.
Qed.
Lemma query_rows t table : token_ok t ->
  exists c, match t with None => Ok None | Some t => c <- WhereSkiptokenClause dirs t ;; Ok (Some c) end = Ok c /\ db c table = rows t table.
Proof.
  intros Ht. destruct t as [t|]; [|exists None; split; reflexivity]. destruct Ht as [Hl _]. destruct (parse_clause dirs t Dirs Hl) as (ts & X1 & _).
  cbn [SqlPageProofs2.rows]. rewrite X1. exists (Some ts). split; reflexivity.
Qed.
Lemma page_rows b table s : token_ok (q_token s) -> match q_skip s with Some n => 0 <= n | None => True end ->
  match q_top s with Some t => 0 <= t | None => True end -> positive (q_topmax s) ->
  fst (gen b table s) = take_opt (q_top s) (take_opt (q_topmax s) (skipn (match q_skip s with Some n => Z.to_nat n | None => 0 end) (rows (q_token s) table))).
Proof.
  intros Ht Hs Htop Hm. unfold pageGenerator. destruct (match q_top s with Some t => t =? 0 | None => false end) eqn:E0.
  - destruct (q_top s) as [t|]; [|discriminate]. apply Z.eqb_eq in E0. subst. reflexivity.
  - destruct (query_rows (q_token s) table Ht) as (c & -> & ->).
    assert (Pt : positive (q_top s)) by (destruct (q_top s) as [t|]; cbn [positive]; [apply Z.eqb_neq in E0; lia|exact I]).
    replace (page_loop (rows (q_token s) table) (q_skip s) (q_top s) (q_topmax s))
      with (page_loop (skipn (match q_skip s with Some n => Z.to_nat n | None => 0 end) (rows (q_token s) table)) (match q_skip s with Some _ => Some 0 | None => None end) (q_top s) (q_topmax s)).
    + assert (T := loop_take (skipn (match q_skip s with Some n => Z.to_nat n | None => 0 end) (rows (q_token s) table)) (match q_skip s with Some _ => Some 0 | None => None end) (q_top s) (q_topmax s)).
      destruct (page_loop (skipn _ _) _ _ _) as [l e]. cbn [fst] in *. apply T; auto. destruct (q_skip s); auto.
    + destruct (q_skip s) as [n|]; [|reflexivity]. symmetry. now apply loop_skip.
Qed.
Lemma page_state top skip tok from off topmax : page_token dirs as_int tok from off ->
  token_ok from /\ SetPage dirs as_int top (Some skip) tok topmax = Ok (mkSql top (Some (skip + off)) from None topmax).
Proof.
  unfold page_token. destruct from as [t|].
  - intros (Hl & Hn & H). split; [split; assumption|]. unfold SetPage. destruct H as [[-> ->]|(v & -> & Hv)].
    + destruct (Nat.eqb_spec (length t) (S (length dirs))); [lia|]. destruct (Nat.eqb_spec (length t) (length dirs)); [|contradiction]. now rewrite Z.add_0_r.
    + rewrite app_length. cbn [length]. destruct (Nat.eqb_spec (length t + 1) (S (length dirs))); [|lia]. rewrite last_last, removelast_last, Hv. reflexivity.
  - intros [-> ->]. split; [exact I|]. cbn [SetPage]. now rewrite Z.add_0_r.
Qed.
Lemma long_end b table t m r next : token_ok (Some t) -> 1 <= m -> nth_error (rows (Some t) table) (Z.to_nat m - 1) = Some r ->
  512 < token_length size_of (vals r) ->
  snd (gen b table (mkSql None (Some 0) (Some t) next (Some m))) =
    Ok (if b then mkSql None (Some 0) (Some (t ++ [Some (of_int m)])) (Some (t ++ [Some (of_int m)])) (Some m)
        else mkSql None (Some 0) (Some t) (Some (t ++ [Some (of_int m)])) (Some m)).
Proof.
  intros Ht Hm N Hr. unfold pageGenerator. cbn [q_top q_topmax q_skip q_token q_next].
  destruct (query_rows (Some t) table Ht) as (c & -> & ->). rewrite (page_loop_spec vals vcmp Anti as_int of_int size_of) by auto.
  rewrite N. unfold next_token. cbn [q_token q_topmax].
  replace (token_length size_of (vals r) >? 512) with true by (symmetry; apply Z.gtb_lt; exact Hr). cbn [bind snd]. now destruct b.
Qed.
Lemma precedes_irrefl (ds : list bool) : forall a : list (option V), precedes vcmp ds a a -> False.
Proof.
  induction ds as [|d ds IH]; intros a H; [exact H|]. destruct a as [|[x|] a]; try exact H. destruct H as [H|[_ H]]; [|now apply (IH a)].
  destruct P as [Rf _]. rewrite Rf in H. destruct d; discriminate.
Qed.
(** *** Pages of $top rows each *)
Lemma loop_end (rs : list R) : forall sk t, sk = None \/ sk = Some 0 -> 1 <= t ->
  snd (page_loop rs sk (Some t) None) = if (Z.to_nat t <=? length rs)%nat then AtTop else NoMore.
Proof.
  induction rs as [|r rs IH]; intros sk t Hs Ht.
  - replace (Z.to_nat t) with (S (Z.to_nat (t - 1))) by lia. reflexivity.
  - assert (X : snd (page_loop (r :: rs) sk (Some t) None) = if t - 1 <? 1 then AtTop else snd (page_loop rs sk (Some (t - 1)) None)).
    { destruct Hs as [-> | ->]; cbn [page_loop Z.eqb]; destruct (t - 1 <? 1); try reflexivity;
        match goal with |- context [page_loop rs ?a ?b ?c] => destruct (page_loop rs a b c) end; reflexivity. }
    rewrite X. destruct (Z.ltb_spec (t - 1) 1).
    + replace (Z.to_nat t) with 1%nat by lia. reflexivity.
    + rewrite IH by (assumption || lia). replace (Z.to_nat t) with (S (Z.to_nat (t - 1))) by lia. reflexivity.
Qed.
Lemma tops_done table next k : forall n tok, sql_pages vals dirs of_int size_of db (fun _ => table) n (mkSql (Some 0) (Some 0) tok next None) k = (repeat [] k, None).
Proof. induction k as [|k IH]; intros n tok; [reflexivity|]. cbn [sql_pages pageGenerator q_top Z.eqb]. now rewrite IH. Qed.
Lemma tops table t (Ht : 1 <= t) k : forall n s next, 0 <= s ->
  exists ls, sql_pages vals dirs of_int size_of db (fun _ => table) n (mkSql (Some t) (Some s) None next None) k = (ls, None) /\
    concat ls = firstn (k * Z.to_nat t) (skipn (Z.to_nat s) (db None table)).
Proof.
  induction k as [|k IH]; intros n s next Hs; [exists []; split; reflexivity|].
  set (L := db None table). cbn [sql_pages]. 
  assert (F := page_rows true table (mkSql (Some t) (Some s) None next None) I Hs ltac:(cbn; lia) I). cbn [q_top q_topmax q_skip q_token take_opt SqlPageProofs2.rows] in F. fold L in F.
  assert (E : snd (gen true table (mkSql (Some t) (Some s) None next None)) =
    Ok (if (Z.to_nat t <=? length (skipn (Z.to_nat s) L))%nat then mkSql (Some t) (Some (s + t)) None next None else mkSql (Some 0) (Some 0) None next None)).
  { unfold pageGenerator. cbn [q_top q_topmax q_skip q_token q_next]. destruct (Z.eqb_spec t 0); [lia|]. fold L.
    rewrite loop_skip by exact Hs. assert (X := loop_end (skipn (Z.to_nat s) L) (Some 0) t (or_intror eq_refl) Ht).
    destruct (page_loop (skipn (Z.to_nat s) L) (Some 0) (Some t) None) as [l e]. cbn [snd] in *. subst e. destruct (_ <=? _)%nat; reflexivity. }
  destruct (gen true table (mkSql (Some t) (Some s) None next None)) as [l r]. cbn [fst snd] in F, E. subst l r.
  destruct (Z.to_nat t <=? length (skipn (Z.to_nat s) L))%nat eqn:Le.
  - destruct (IH (S n) (s + t) next ltac:(lia)) as (ls & -> & C). eexists. split; [reflexivity|]. cbn [concat]. rewrite C. fold L.
    replace (Z.to_nat (s + t)) with (Z.to_nat s + Z.to_nat t)%nat by lia. cbn [Nat.mul].
    apply Nat.leb_le in Le. revert Le. generalize (Z.to_nat t) as a, (Z.to_nat s) as b. intros a b Le.
    replace (skipn (b + a) L) with (skipn a (skipn b L)).
    + generalize (skipn b L) as l. intros l. revert Le. generalize (k * a)%nat. clear. intros. now rewrite firstn_plus.
    + clear. revert b. induction L as [|x L IH]; intros b; [now rewrite !skipn_nil|]. destruct b; [reflexivity|]. cbn [skipn Nat.add]. apply IH.
  - rewrite tops_done. eexists. split; [reflexivity|]. cbn [concat].
    replace (concat (repeat [] k)) with (@nil R) by (clear; induction k as [|k IH]; [reflexivity|exact IH]). rewrite app_nil_r.
    apply Nat.leb_gt in Le. rewrite !firstn_all2; [reflexivity| |]; fold L; nia.
Qed.
End Sql.
