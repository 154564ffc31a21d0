(** C136-C139, C141: order and pages of entity collections. *)
From Coq Require Import Lia Zify Permutation Sorted.
From Verif Require Import Py Iso Dec Shapes XmlChars HttpCore HttpSpec HttpProofs3 OdPage OdPageSpec OdPageProofs OdPageProofs2.
Open Scope Z_scope.
Open Scope list_scope.

Section Props.
Context {E : Type}.
Notation rule := ((E -> E -> comparison) * bool)%type.

(** * C136: order and pages of a collection in memory *)
Lemma SS_impl {A} (P Q : A -> A -> Prop) l : (forall a b, P a b -> Q a b) -> StronglySorted P l -> StronglySorted Q l.
Proof.
  intros H S. induction S as [|x l S IH F]; constructor; [exact IH|]. rewrite Forall_forall in *. intros y Hy. apply H, F, Hy.
Qed.
Lemma itervalues_id key paging rules f (table : list E) :
  itervalues key paging rules f (fun e => e) table = OrderEntities key paging rules (filter f table).
Proof. unfold itervalues. now rewrite map_id. Qed.
Theorem C136_order (key : E -> E -> comparison) (rules : list rule) (f : E -> bool) (table : list E) :
  preorder key -> Forall (fun r => preorder (fst r)) rules ->
  Permutation (itervalues key true rules f (fun e => e) table) (filter f table) /\
  StronglySorted (before rules key) (itervalues key true rules f (fun e => e) table).
Proof.
  intros K R. rewrite itervalues_id. split; [apply OrderEntities_perm|].
  eapply SS_impl; [|apply (OrderEntities_sorted key K rules); exact R].
  intros a b. apply (compound_before key rules a b R).
Qed.
(** If no two entities have the same key the order does not depend on how they are stored *)
Theorem C136_deterministic (key : E -> E -> comparison) (rules : list rule) (f : E -> bool) (table table' : list E) :
  preorder key -> Forall (fun r => preorder (fst r)) rules ->
  (forall a b, In a table -> In b table -> key a b = Eq -> a = b) -> Permutation table table' ->
  itervalues key true rules f (fun e => e) table = itervalues key true rules f (fun e => e) table'.
Proof.
  intros K R U PM. rewrite !itervalues_id. apply OrderEntities_unique; try assumption.
  - intros a b Ha Hb. apply filter_In in Ha, Hb. apply U; tauto.
  - clear -PM. induction PM; cbn; repeat match goal with |- context[if ?b then _ else _] => destruct b end; eauto using Permutation.
Qed.
(** Page number k (from 0) of the requested size, with the first [s] entities left out *)
Theorem C136_pages (es : list E) (t m : option Z) (s : Z) (k : nat) :
  0 <= s -> (forall n, t = Some n -> 0 < n) -> (forall n, m = Some n -> 0 <= n) ->
  pages (fun _ => es) 0 (TopMax m (SetPage t (Some s) None new_collection)) k =
  map (nth_page (Z.to_nat s) (option_map Z.to_nat (page_size t m)) es) (seq 0 k).
Proof.
  intros Hs Ht Hm.
  rewrite (pages_from (fun _ => es) es (Z.to_nat s) (fun _ => eq_refl) k 0 0); [change (map (nth_page (Z.to_nat s) (to_size (page_size t m)) es) (seq 0 k) = map (nth_page (Z.to_nat s) (option_map Z.to_nat (page_size t m)) es) (seq 0 k)); destruct (page_size t m); reflexivity|exact Ht|exact Hm|].
  unfold at_page, start. cbn [top topmax skip skiptoken TopMax SetPage new_collection]. destruct (page_size t m); lia.
Qed.
Lemma skipn_add a b (es : list E) : skipn (b + a) es = skipn b (skipn a es).
Proof.
  revert es. induction a as [|a IH]; intros es; [now rewrite Nat.add_0_r|].
  rewrite Nat.add_succ_r. destruct es; [now rewrite !skipn_nil|]. apply IH.
Qed.
(** Enough pages give the whole collection, each entity once *)
Lemma pages_concat (l : list E) n : (0 < n)%nat -> forall k j s, (length l <= s + (j + k) * n)%nat ->
  concat (map (nth_page s (Some n) l) (seq j k)) = skipn (s + j * n) l.
Proof.
  intros Hn. induction k as [|k IH]; intros j s H; cbn [seq map concat].
  - rewrite skipn_all2 by lia. reflexivity.
  - rewrite IH by lia. cbn [nth_page]. replace (s + S j * n)%nat with (n + (s + j * n))%nat by lia.
    rewrite <- (firstn_skipn n (skipn (s + j * n) l)) at 2. f_equal.
    apply skipn_add.
Qed.
Theorem C136_whole (es : list E) (t m : option Z) (s : Z) (k : nat) :
  0 <= s -> (forall n, t = Some n -> 0 < n) -> (forall n, m = Some n -> 0 <= n) -> (length es < k)%nat ->
  concat (pages (fun _ => es) 0 (TopMax m (SetPage t (Some s) None new_collection)) k) = skipn (Z.to_nat s) es.
Proof.
  intros Hs Ht Hm Hk. rewrite C136_pages by assumption. destruct (page_size t m) as [z|] eqn:Ez; cbn [option_map].
  - pose proof (size_pos t m z Ht Hm Ez). assert (1 <= Z.to_nat z)%nat by lia. rewrite pages_concat by nia. f_equal. lia.
  - destruct k as [|k]; [lia|]. cbn [seq map concat nth_page]. replace (concat _) with (@nil E); [apply app_nil_r|].
    symmetry. generalize 1%nat (Nat.lt_0_succ 0). clear. induction k as [|k IH]; intros j Hj; [reflexivity|]. cbn [seq map concat nth_page].
    destruct j as [|j]; [lia|]. apply IH. lia.
Qed.
(** $top=0 gives nothing *)
Theorem C136_top0 (ess : nat -> list E) (m : option Z) (s : option Z) (token : option str) (k : nat) :
  concat (pages ess 0 (TopMax m (SetPage (Some 0) s token new_collection)) k) = [].
Proof.
  generalize 0%nat. induction k as [|k IH]; intros n; [reflexivity|]. exact (IH (S n)).
Qed.

(** * C137: the next link of a page *)
(** A request for entities from number [s], at most [t] of them, from a server whose pages have at
    most [m] entities *)
Definition asked (s : Z) (t : option Z) (es : list E) : list E := slice (Z.to_nat s) (option_map Z.to_nat t) es.
(** Without a next link the response has all that was asked for *)
Theorem C137_none (m : option Z) (es : list E) (t : option Z) (s : Z) (l : list E) :
  0 <= s -> (forall n, t = Some n -> 0 <= n) -> (forall n, m = Some n -> 0 <= n) ->
  serve m es t (Some s) None = (l, None) -> l = asked s t es.
Proof.
  intros Hs Ht Hm. rewrite serve_spec by (assumption || (unfold place; lia)). unfold asked.
  destruct t as [t|]; cbn [option_map].
  - destruct (Z.eqb_spec t 0) as [->|Hn]; [intros [= <-]; reflexivity|].
    change (place (Some s) None) with (s + 0). rewrite Z.add_0_r. unfold force, page_size. destruct m as [m|]; [|intros [= <-]; reflexivity].
    destruct (m =? 0); [intros [= <-]; reflexivity|]. destruct (t >? m) eqn:X; [discriminate|]. intros [= <-].
    cbn [to_size]. now replace (Z.min t m) with t by lia.
  - change (place (Some s) None) with (s + 0). rewrite Z.add_0_r. unfold force, page_size. destruct m as [m|]; [|intros [= <-]; reflexivity].
    destruct (m =? 0); [intros [= <-]; reflexivity|discriminate].
Qed.
(** With a next link the response has the first [m] of what was asked for, which is fewer than [t];
    the next link gives the [m] entities after those *)
Theorem C137_next (m : option Z) (es : list E) (t : option Z) (s : Z) (l : list E) (tok : str) :
  0 <= s -> (forall n, t = Some n -> 0 <= n) -> (forall n, m = Some n -> 0 <= n) ->
  serve m es t (Some s) None = (l, Some tok) ->
  exists n, m = Some n /\ 0 < n /\ (forall k, t = Some k -> n < k) /\
    l = slice (Z.to_nat s) (Some (Z.to_nat n)) es /\
    fst (serve m es None None (Some tok)) = slice (Z.to_nat (s + n)) (Some (Z.to_nat n)) es.
Proof.
  intros Hs Ht Hm. rewrite serve_spec by (assumption || (unfold place; lia)). change (place (Some s) None) with (s + 0). rewrite Z.add_0_r.
  destruct (match t with Some t => t =? 0 | None => false end) eqn:T0; [discriminate|].
  destruct (force t m) as [n|] eqn:F; [|discriminate]. intros [= <- <-].
  assert (Hn : m = Some n /\ 0 < n /\ forall k, t = Some k -> n < k).
  { unfold force in F. destruct m as [m|]; [|discriminate]. specialize (Hm _ eq_refl). destruct (Z.eqb_spec m 0); [discriminate|].
    destruct t as [t|]; [destruct (t >? m) eqn:X; [|discriminate]|]; injection F as <-; (split; [reflexivity|split; [lia|]]); intros k [= <-]. lia. }
  destruct Hn as (-> & Hp & Hk). exists n. split; [reflexivity|]. split; [exact Hp|]. split; [exact Hk|].
  apply force_size in F. rewrite F. split; [reflexivity|].
  rewrite serve_spec; [| |discriminate|intros k [= <-]; lia].
  - cbn [fst]. unfold place. rewrite int16_hexstr by lia. unfold page_size. destruct (n =? 0) eqn:X; [lia|]. reflexivity.
  - unfold place. rewrite int16_hexstr by lia. lia.
Qed.
(** The whole of what was asked for, by following next links: without $top *)
Theorem C137_follow_partial (m : option Z) (es : list E) (s : Z) (l : list E) (tok : str) (k : nat) :
  0 <= s -> (forall n, m = Some n -> 0 <= n) -> (length es < k)%nat ->
  serve m es None (Some s) None = (l, Some tok) ->
  exists r, entityGenerator m (fun _ => es) 1 (Some tok) k = Ok r /\ l ++ r = asked s None es.
Proof.
  intros Hs Hm Hk H. rewrite serve_spec in H by (assumption || discriminate || (unfold place; lia)). change (place (Some s) None) with (s + 0) in H. rewrite Z.add_0_r in H.
  destruct (force None m) as [n|] eqn:F; [|discriminate]. injection H as <- <-.
  assert (Hn : 0 < n).
  { unfold force in F. destruct m as [m|]; [|discriminate]. specialize (Hm _ eq_refl). destruct (Z.eqb_spec m 0); [discriminate|]. injection F as <-. lia. }
  exists (skipn (Z.to_nat (s + n)) es). split.
  - apply entityGenerator_spec; [reflexivity|exact Hm| |lia]. unfold place. rewrite int16_hexstr by lia. lia.
  - pose proof (force_size _ _ _ F) as FS. unfold page_size in FS. rewrite FS. unfold asked, slice, to_size. cbn [option_map].
    replace (Z.to_nat (s + n)) with (Z.to_nat n + Z.to_nat s)%nat by lia.
    rewrite <- (firstn_skipn (Z.to_nat n) (skipn (Z.to_nat s) es)) at 2. f_equal.
    apply skipn_add.
Qed.

(** * C138: a client reading a whole collection *)
Theorem C138_itervalues (m : option Z) (es : list E) (k : nat) :
  (forall n, m = Some n -> 0 <= n) -> (length es < k)%nat ->
  entityGenerator m (fun _ => es) 0 None k = Ok es.
Proof. intros Hm Hk. apply (entityGenerator_spec m (fun _ => es) es (fun _ => eq_refl) Hm k 0); [reflexivity|lia]. Qed.

(** * C139: a client reading page after page *)
Theorem C139_pages (m : option Z) (es : list E) (t : option Z) (s : Z) (k : nat) :
  0 <= s -> (forall n, t = Some n -> 0 < n) -> (forall n, m = Some n -> 0 <= n) ->
  client_pages m (fun _ => es) 0 (SetPage t (Some s) None new_collection) k =
  map (nth_page (Z.to_nat s) (option_map Z.to_nat (page_size t m)) es) (seq 0 k).
Proof.
  intros Hs Ht Hm.
  rewrite (client_pages_spec m (fun _ => es) es (Z.to_nat s) (fun _ => eq_refl) Hm k 0 0); [change (map (nth_page (Z.to_nat s) (to_size (page_size t m)) es) (seq 0 k) = map (nth_page (Z.to_nat s) (option_map Z.to_nat (page_size t m)) es) (seq 0 k)); destruct (page_size t m); reflexivity|exact Ht|unfold place; cbn [skip skiptoken SetPage new_collection]; lia|].
  unfold at_client, place. cbn [top skip skiptoken SetPage new_collection]. destruct (page_size t m); [left; lia|left; lia].
Qed.

(** * C141: $select *)
(** What the filter and the rules look at is kept by the selection *)
Lemma sort_map (cmp : E -> E -> comparison) (g : E -> E) l : (forall a b, cmp (g a) (g b) = cmp a b) -> sort cmp (map g l) = map g (sort cmp l).
Proof.
  intros H. induction l as [|x l IH]; [reflexivity|]. cbn [map].
  change (insert cmp (g x) (sort cmp (map g l)) = map g (insert cmp x (sort cmp l))). rewrite IH. generalize (sort cmp l). clear -H.
  induction l as [|y l IH]; [reflexivity|]. cbn [map insert]. rewrite H. destruct (cmp y x); cbn [map]; rewrite ?IH; reflexivity.
Qed.
Theorem C141_select_partial (key : E -> E -> comparison) (paging : bool) (rules : list rule) (f : E -> bool) (select : E -> E) (table : list E) :
  (forall e, f (select e) = f e) -> (forall a b, key (select a) (select b) = key a b) ->
  Forall (fun r : rule => forall a b, fst r (select a) (select b) = fst r a b) rules ->
  itervalues key paging rules f select table = map select (itervalues key paging rules f (fun e => e) table).
Proof.
  intros Hf Hk Hr. rewrite itervalues_id. unfold itervalues.
  assert (X : filter f (map select table) = map select (filter f table)).
  { induction table as [|e l IH]; [reflexivity|]. cbn [map filter]. rewrite Hf, IH. destruct (f e); reflexivity. }
  rewrite X. generalize (filter f table). intros l. induction Hr as [|r rules Hr _ IH].
  - unfold OrderEntities. cbn. destruct paging; [apply sort_map, Hk|reflexivity].
  - rewrite !OrderEntities_cons, IH. apply sort_map. intros a b. unfold direct. destruct (snd r); apply Hr.
Qed.
End Props.

(** ** What is not so *)
(** A next link although nothing is left *)
Theorem C137_refuted : ~ forall (m : option Z) (es : list Z) (t : option Z) (l : list Z) (tok : str),
  serve m es t (Some 0) None = (l, Some tok) -> fst (serve m es None None (Some tok)) <> [].
Proof. intros H. apply (H (Some 2) [7; 8] None [7; 8] (hexstr 2)); reflexivity. Qed.
(** Following the next links of a request with $top gives more than was asked for *)
Theorem C137_top_refuted : ~ forall (m : option Z) (es : list Z) (t : option Z) (l r : list Z) (tok : str) (k : nat),
  serve m es t (Some 0) None = (l, Some tok) -> entityGenerator m (fun _ => es) 1 (Some tok) k = Ok r ->
  l ++ r = asked 0 t es.
Proof.
  intros H. specialize (H (Some 2) [1; 2; 3; 4; 5] (Some 3) [1; 2] [3; 4; 5] (hexstr 2) 5%nat eq_refl eq_refl). discriminate.
Qed.
(** The filter sees entities whose unselected properties are NULL *)
Definition by_first (a b : Z * option Z) : comparison := fst a ?= fst b.
Definition only_key (e : Z * option Z) : Z * option Z := (fst e, None).
Definition second_is (v : Z) (e : Z * option Z) : bool := match snd e with Some x => x =? v | None => false end.
Theorem C141_refuted : ~ forall (f : Z * option Z -> bool) (select : Z * option Z -> Z * option Z) (table : list (Z * option Z)),
  (forall e, fst (select e) = fst e) ->
  map fst (itervalues by_first true [] f select table) = map fst (itervalues by_first true [] f (fun e => e) table).
Proof.
  intros H. specialize (H (second_is 5) only_key [(1, Some 5); (2, Some 6)] (fun _ => eq_refl)). discriminate.
Qed.

(** ** Examples *)
Definition by_second (a b : Z * option Z) : comparison :=
  match snd a, snd b with Some x, Some y => x ?= y | None, None => Eq | None, _ => Lt | _, None => Gt end.
Definition small_table : list (Z * option Z) := [(4, Some 1); (2, Some 3); (3, None); (1, Some 3); (5, Some 1)].
Example ex_C136_order : itervalues by_first true [(by_second, true)] (fun e => negb (fst e =? 5)) (fun e => e) small_table =
  [(1, Some 3); (2, Some 3); (4, Some 1); (3, None)].
Proof. reflexivity. Qed.
Lemma by_first_preorder : preorder by_first.
Proof. apply (map_preorder fst), Z_preorder. Qed.
Lemma by_second_preorder : preorder by_second.
Proof.
  repeat split.
  - intros [a [x|]]; cbn; [apply Z.compare_refl|reflexivity].
  - intros [a [x|]] [b [y|]]; cbn; try reflexivity. apply Z.compare_antisym.
  - intros [a [x|]] [b [y|]] [c [z|]]; unfold by_second; cbn; try easy. apply Z_preorder.
Qed.
Example ex_C136_pre : preorder by_first /\ Forall (fun r => preorder (fst r)) [(by_second, true)] /\
  forall a b, In a small_table -> In b small_table -> by_first a b = Eq -> a = b.
Proof.
  split; [apply by_first_preorder|]. split; [constructor; [apply by_second_preorder|constructor]|].
  intros a b Ha Hb. cbn in Ha, Hb. intuition (subst; cbn; (reflexivity || discriminate)).
Qed.
Example ex_C136_pages : pages (fun _ => [1; 2; 3; 4; 5; 6]) 0 (TopMax (Some 2) (SetPage None (Some 1) None new_collection)) 4 =
  [[2; 3]; [4; 5]; [6]; []].
Proof. reflexivity. Qed.
Example ex_C136_smaller : pages (fun _ => [1; 2; 3; 4; 5; 6]) 0 (TopMax (Some 4) (SetPage (Some 3) (Some 1) None new_collection)) 3 =
  [[2; 3; 4]; [5; 6]; []].
Proof. reflexivity. Qed.
Example ex_C137_none : serve (Some 4) [1; 2; 3; 4; 5] (Some 3) (Some 1) None = ([2; 3; 4], None).
Proof. reflexivity. Qed.
Example ex_C137_next : serve (Some 2) [1; 2; 3; 4; 5] (Some 3) (Some 1) None = ([2; 3], Some (hexstr 3)).
Proof. reflexivity. Qed.
Example ex_C138 : entityGenerator (Some 2) (fun _ => [1; 2; 3; 4]) 0 None 5 = Ok [1; 2; 3; 4].
Proof. reflexivity. Qed.
Example ex_C139 : client_pages (Some 2) (fun _ => [1; 2; 3; 4; 5]) 0 (SetPage None (Some 0) None new_collection) 4 =
  [[1; 2]; [3; 4]; [5]; []].
Proof. reflexivity. Qed.
Example ex_C141 : forall e, second_is 5 (fst e, snd e) = second_is 5 e.
Proof. reflexivity. Qed.

Print Assumptions C136_order.
Print Assumptions C136_deterministic.
Print Assumptions C136_pages.
Print Assumptions C136_whole.
Print Assumptions C136_top0.
Print Assumptions C137_none.
Print Assumptions C137_next.
Print Assumptions C137_follow_partial.
Print Assumptions C137_refuted.
Print Assumptions C137_top_refuted.
Print Assumptions C138_itervalues.
Print Assumptions C139_pages.
Print Assumptions C141_select_partial.
Print Assumptions C141_refuted.
