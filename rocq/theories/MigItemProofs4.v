(** The tests of a converted item agree with the migration of [V1Mig] on the renamed program. *)
From Coq Require Import Lia QArith Qcanon.
From Verif Require Import XmlCharsSpec.
From Verif Require Import Py Iso Dec XmlUtils XmlChars XmlCharsProofs2 Xsd Shapes ShapesProofs2 QtiValue QtiExpr QtiSpec QtiProc QtiProcSpec
  V1Mig V1MigSpec V1MigProofs2 MigWrite MigItem MigItemSpec MigItemProofs MigItemProofs2 MigItemProofs3.
Open Scope Z_scope.
Open Scope list_scope.

(** ** Identifiers *)
Definition ident (s : str) : Prop := nc_name s /\ Forall bmp s.
Definition idchar (c : Z) : Prop := name_char c /\ bmp c /\ c <> 58.
Lemma ident_iff s : ident s <-> exists c r, s = c :: r /\ name_start_char c /\ Forall idchar s.
Proof.
  unfold ident, nc_name, name, idchar. split.
  - intros [[(c & r & -> & H1 & H2) H3] H4]. exists c, r. split; [reflexivity|]. split; [exact H1|].
    apply Forall_forall. intros x Hx. rewrite Forall_forall in *. split; [|split].
    + destruct Hx as [<-|Hx]; [now left|auto].
    + auto.
    + intros ->. contradiction.
  - intros (c & r & -> & H1 & H2). rewrite Forall_forall in H2. split; [split|].
    + exists c, r. split; [reflexivity|]. split; [exact H1|]. apply Forall_forall. intros x Hx. apply H2. now right.
    + intros K. apply H2 in K. tauto.
    + apply Forall_forall. intros x Hx. apply H2, Hx.
Qed.
Lemma ident_v2id s : ident s -> v2id s = s.
Proof. intros [H1 H2]. apply ValidateIdentifier_id; assumption. Qed.
Lemma idchar_space c : idchar c -> is_space c = false.
Proof. intros (H & _). unfold name_char, name_start_char in H. unfold is_space. lia. Qed.
Lemma ident_strip s : ident s -> Shapes.strip s = s.
Proof.
  intros H. apply ident_iff in H as (c & r & -> & _ & H). apply strip_id. eapply Forall_impl; [|exact H]. intros x. apply idchar_space.
Qed.
Lemma ident_map f s : ident s -> (forall c, name_start_char c -> c <> 58 -> bmp c -> name_start_char (f c)) -> (forall c, idchar c -> idchar (f c)) -> ident (map f s).
Proof.
  intros H H1 H2. apply ident_iff in H as (c & r & -> & H3 & H4). apply ident_iff. exists (f c), (map f r). split; [reflexivity|].
  apply Forall_cons_iff in H4 as H5. destruct H5 as [(_ & H5 & H6) _]. split; [auto|]. change (f c :: map f r) with (map f (c :: r)). apply Forall_forall. intros x Hx. apply in_map_iff in Hx as (y & <- & Hy).
  rewrite Forall_forall in H4. auto.
Qed.
Lemma ident_app s t : ident s -> Forall idchar t -> ident (s ++ t).
Proof.
  intros H Ht. apply ident_iff in H as (c & r & -> & H3 & H4). apply ident_iff. exists c, (r ++ t). split; [reflexivity|]. split; [exact H3|].
  apply Forall_app. auto.
Qed.
Lemma prefix_ident p : In p ["RESPONSE_"; "FEEDBACK_"; "OUTCOME_"]%string -> ident (lit p).
Proof.
  intros H. assert (G : IsValidNCName (lit p) = true) by (destruct H as [<-|[<-|[<-|[]]]]; reflexivity). apply IsValidNCName_iff in G. exact G.
Qed.
Lemma cleaned_ident p v : ident (lit p) -> ident (cleaned (lit p) v).
Proof.
  intros Hp. unfold cleaned. apply ident_map.
  - split; [apply ValidateIdentifier_valid, Hp|]. destruct Hp as [_ Hp]. unfold ValidateIdentifier. destruct (Shapes.strip v) as [|c s] eqn:E; [exact Hp|].
    apply Forall_app. split; [destruct (negb _); [exact Hp|destruct (c =? 58); [exact Hp|constructor]]|].
    apply Forall_forall. intros x Hx. apply in_flat_map in Hx as (y & _ & Hx). unfold good_char in Hx. change (lit "-") with [45] in Hx. change (lit "_") with [95] in Hx.
    unfold bmp. destruct (y =? 58); [destruct Hx as [<-|[]]; lia|]. destruct (IsNameChar y) eqn:E1; [|destruct Hx as [<-|[]]; lia].
    destruct Hx as [<-|[]]. apply IsNameChar_iff in E1. apply E1.
  - intros c. unfold name_start_char, bmp. destruct (c =? 46) eqn:E; lia.
  - intros c (H1 & H2 & H3). destruct (c =? 46) eqn:E; [|repeat split; auto]. unfold idchar, name_char, name_start_char, bmp. lia.
Qed.
Lemma response_id_ident v : ident (response_id v).
Proof. apply cleaned_ident, prefix_ident. cbn; auto. Qed.
Lemma feedback_id_ident v : ident (feedback_id v).
Proof. apply cleaned_ident, prefix_ident. cbn; auto. Qed.
Lemma upper_ident s : ident s -> ident (upper s).
Proof.
  intros H. apply ident_map; [exact H| |].
  - intros c. unfold name_start_char, bmp. destruct ((97 <=? c) && (c <=? 122)) eqn:E; lia.
  - intros c (H1 & H2 & H3). destruct ((97 <=? c) && (c <=? 122)) eqn:E; [|repeat split; auto]. unfold idchar, name_char, name_start_char, bmp. lia.
Qed.
Lemma outcome_id_ident uc v : ident (outcome_id uc v).
Proof.
  assert (H : ident (cleaned (lit "OUTCOME_") v)) by (apply cleaned_ident, prefix_ident; cbn; auto).
  unfold outcome_id. destruct uc; [apply upper_ident, H|exact H].
Qed.
Lemma score_ident : ident (lit "SCORE").
Proof. apply IsValidNCName_iff. reflexivity. Qed.
Lemma outcome_named_ident uc v : ident (outcome_named uc v).
Proof. destruct v; [apply outcome_id_ident|apply score_ident]. Qed.
Lemma decvar_id_ident uc e : ident (decvar_id uc e).
Proof.
  unfold decvar_id. destruct (Shapes.strip (de_data e)); [apply outcome_named_ident|]. destruct (str_eqb _ _); [apply outcome_id_ident|apply outcome_named_ident].
Qed.
Lemma digit_idchar c : 48 <= c <= 57 -> idchar c.
Proof. unfold idchar, name_char, name_start_char, bmp. lia. Qed.
Lemma number_idchars k : 1 <= k <= 99 -> Forall idchar (pad 2 (fmt k)).
Proof.
  intros H. assert (G : forallb (fun k => forallb (fun c => (48 <=? c) && (c <=? 57)) (pad 2 (fmt (Z.of_nat k)))) (seq 1 99) = true) by reflexivity.
  rewrite forallb_forall in G. specialize (G (Z.to_nat k)). rewrite Z2Nat.id in G by lia. specialize (G ltac:(apply in_seq; lia)).
  rewrite forallb_forall in G. apply Forall_forall. intros c Hc. apply digit_idchar. specialize (G c Hc). lia.
Qed.
Lemma renamed_ident id n : ident id -> MigItemProofs.renamed id n -> ident n.
Proof.
  intros H [->|(k & Hk & ->)]; [exact H|]. apply ident_app; [exact H|apply number_idchars, Hk].
Qed.
Lemma FEEDBACK_ident : ident MigItem.FEEDBACK.
Proof. apply IsValidNCName_iff. reflexivity. Qed.

(** ** Declarations *)
Lemma reads_id d : d_id (reads_declaration d) = decl_identifier d.
Proof. destruct d; reflexivity. Qed.
Lemma assoc_filters (f : MigWrite.declaration -> bool) n d : forall ds : list (str * MigWrite.declaration), NoDup (map fst ds) ->
  (forall k x, In (k, x) ds -> decl_identifier x = k) -> In (n, d) ds ->
  assoc n (map (fun d => (d_id d, d)) (map reads_declaration (filter f (map snd ds)))) = if f d then Some (reads_declaration d) else None.
Proof.
  induction ds as [|[k x] ds IH]; intros HN Hk Hin; [destruct Hin|]. cbn [map fst snd filter] in *. inversion HN as [|? ? Hn HN']; subst.
  assert (Hx : decl_identifier x = k) by (apply Hk; now left).
  assert (Hrest : forall m, ~ In m (map fst ds) -> assoc m (map (fun d => (d_id d, d)) (map reads_declaration (filter f (map snd ds)))) = None).
  { clear - Hk. intros m Hm. assert (K : forall k x, In (k, x) ds -> decl_identifier x = k) by (intros; apply Hk; now right). clear Hk.
    induction ds as [|[k' y] ds IH]; [reflexivity|]. cbn [map snd filter fst In] in *. destruct (f y); [|apply IH; [tauto|intros; apply K; auto]].
    cbn [map assoc]. rewrite reads_id, (K k' y) by auto. destruct (str_eqb m k') eqn:E; [apply str_eqb_eq in E; subst; tauto|]. apply IH; [tauto|intros; apply K; auto]. }
  destruct Hin as [[= -> ->]|Hin].
  - destruct (f d); cbn [map assoc]; [|apply Hrest, Hn]. rewrite reads_id, Hx, str_eqb_refl. reflexivity.
  - assert (n <> k) by (intros ->; apply Hn, in_map_iff; exists (k, d); auto).
    destruct (f x); cbn [map assoc]; [rewrite reads_id, Hx; destruct (str_eqb n k) eqn:E; [apply str_eqb_eq in E; congruence|]|];
      (apply IH; [exact HN'|intros a b Hab; apply Hk; right; exact Hab|exact Hin]).
Qed.
Lemma find_reads s n d : inv s -> In (n, d) (declared s) -> find_decl (reads_item s) n = Some (reads_declaration d).
Proof.
  intros I H. unfold find_decl, reads_item, QtiExpr.i_decls. cbn [QtiExpr.i_responses QtiExpr.i_outcomes QtiExpr.i_templates]. 
  rewrite ?app_nil_r, map_app.
  assert (K : forall k x, In (k, x) (declared s) -> decl_identifier x = k) by (intros k x Hx; apply (i_declared s I _ _ Hx)).
  assert (A : forall (n : str) (l m : list (str * QtiExpr.declaration)), assoc n (l ++ m) = match assoc n l with Some x => Some x | None => assoc n m end).
  { intros k l m. induction l as [|[k' v] l IH]; [reflexivity|]. cbn [app assoc]. destruct (str_eqb k k'); [reflexivity|exact IH]. }
  rewrite A, !(assoc_filters _ n d (declared s)) by (try apply I; assumption).
  destruct (MigWrite.is_response d); reflexivity.
Qed.

(** ** Coordinates *)
Lemma int_digits_float v n : int_digits v = Ok n -> int_float v = Ok n.
Proof.
  unfold int_digits, int_float. destruct (mem 46 v) eqn:E; [discriminate|]. intros [= <-].
  assert (G : forall l cur, mem 46 l = false -> split_dot l cur = (rev cur ++ l, None)).
  { induction l as [|c l IH]; intros cur H; cbn [split_dot]; [rewrite app_nil_r; reflexivity|].
    cbn [mem] in H. apply orb_false_iff in H as [H1 H2]. replace (c =? 46) with false by lia. rewrite IH by exact H2. cbn [rev]. rewrite <- app_assoc. reflexivity. }
  rewrite G by exact E. reflexivity.
Qed.
Lemma scan_same : forall s sep v cs l, MigItem.scan s sep v cs = Ok l -> Shapes.scan s sep v cs = Ok l.
Proof.
  induction s as [|c s IH]; intros sep v cs l; cbn [MigItem.scan Shapes.scan].
  - destruct v as [|d v]; [auto|]. destruct (int_digits _) as [n|] eqn:E; cbn [bind]; [|discriminate]. rewrite (int_digits_float _ _ E). auto.
  - destruct (is_num_char c); [|apply IH]. destruct (sep && _); [|apply IH].
    destruct (int_digits _) as [n|] eqn:E; cbn [bind]; [|discriminate]. rewrite (int_digits_float _ _ E). cbn [bind]. apply IH.
Qed.
Lemma coords_same a text sh cs l : ConvertAreaCoords (Some a) text = Ok (sh, cs) -> MigItem.scan text false [] [] = Ok l -> (4 <= length l)%nat ->
  exists shape, shape_of sh = Some shape /\ MigrateV2AreaCoords a text = Ok (shape, map (mkLen Pixel) cs) /\ Forall harmless (area_log a text).
Proof.
  intros H Hl Hn. unfold ConvertAreaCoords in H. rewrite Hl in H. cbn [bind] in H. unfold MigrateV2AreaCoords, area_log. rewrite (scan_same _ _ _ _ _ Hl). cbn [bind].
  destruct l as [|c0 [|c1 [|c2 [|c3 l]]]]; cbn [length] in Hn; try lia. destruct a; cbn [pad4 app] in *.
  - destruct (c2 =? c3); injection H as <- <-; eexists; (split; [reflexivity|]); (split; [reflexivity|]); repeat constructor; right; left; reflexivity.
  - injection H as <- <-. eexists. split; [reflexivity|]. split; [reflexivity|]. cbn [length]. destruct (_ <? 4)%nat eqn:E; [apply Nat.ltb_lt in E; lia|constructor].
  - injection H as <- <-. eexists. split; [reflexivity|]. split; [reflexivity|]. constructor.
Qed.

(** ** Tests *)
Section Agree.
Variables (uc : bool) (rs : list response) (s : MigItem.state) (R : str -> str).
Hypothesis I : inv s.
Hypothesis HR : forall id, R id = name_in (responses s) id.
Hypothesis Hkeys : map fst (responses s) = flat_map response_ids rs.
Hypothesis Hrs : forall r, In r rs -> response_in s r.
Hypothesis Htyped : Forall typed_response rs.
Let i := reads_item s.

Lemma assoc_of {A} k (d : list (str * A)) : assoc k d = dget k d.
Proof. induction d as [|[k' v] d IH]; [reflexivity|]. cbn [assoc dget]. rewrite IH. reflexivity. Qed.
Lemma kinds_keys : map fst (flat_map response_kinds rs) = flat_map response_ids rs.
Proof.
  clear. induction rs as [|r l IH]; [reflexivity|]. cbn [flat_map]. rewrite map_app, IH. f_equal. unfold response_kinds, response_ids.
  rewrite map_app, map_map. reflexivity.
Qed.
Lemma kind_is r id : In r rs -> r_split r = 0%nat -> response_id (r_ident r) = response_id id -> kind_of rs (Some id) = (r_cardinality r, r_baseType r).
Proof.
  intros Hin Hs Hid. unfold kind_of. rewrite <- Hid, assoc_of. rewrite (in_dget _ (r_cardinality r, r_baseType r)); [reflexivity| |].
  - rewrite kinds_keys, <- Hkeys. apply I.
  - apply in_flat_map. exists r. split; [exact Hin|]. unfold response_kinds. rewrite Hs. now left.
Qed.
(** The response tested *)
Lemma response_found r id : In r rs -> r_split r = 0%nat -> response_id (r_ident r) = response_id id ->
  exists n, R (response_id id) = n /\ v2id n = n /\ GetResponse s (Some (response_id id)) = Some (whole r n) /\
    find_decl i n = Some (reads_declaration (whole r n)).
Proof.
  intros Hin Hs Hid. destruct (Hrs r Hin) as [H _]. rewrite Hs, Hid in H. destruct H as (n & H1 & H2). exists n.
  assert (Hn : R (response_id id) = n) by (rewrite HR; unfold name_in; rewrite H1; reflexivity). split; [exact Hn|].
  destruct (i_response s I _ _ (dget_in _ _ _ H1)) as (d & K1 & K2 & K3). rewrite H2 in K1. injection K1 as <-. split; [|split].
  - apply ident_v2id. eapply renamed_ident; [apply response_id_ident|]. apply (i_origin s I). left. apply dget_in, H1.
  - unfold GetResponse. rewrite H1, H2. reflexivity.
  - apply find_reads; [exact I|]. apply K3. reflexivity.
Qed.
Lemma plain_variable r n index : GetResponse s (Some n) = Some (whole r (R n)) -> no_index index ->
  MakeVariableExpression s (Some n) index = Ok (VariableOperator (R n), r_cardinality r, r_baseType r).
Proof. intros H Hi. unfold MakeVariableExpression. rewrite H. destruct Hi as [->| ->]; reflexivity. Qed.
Lemma plain_v1 d index : no_index index -> MigrateV2Variable d index = lret (EVariable (d_id d)).
Proof. intros [->| ->]; reflexivity. Qed.

Definition agrees (e : test) : Prop := faithful rs e -> forall es, CloseTest Vv s e = Ok es ->
  exists x y w, es = [x] /\ MigrateV2Expression i (v1_test rs R e) = Ok (y, w) /\ reads x = Some y /\ Forall harmless w.

Lemma one_of_type r : In r rs -> one_of ["single"; "multiple"; "ordered"]%string (r_cardinality r) /\ exists b, base_of (r_baseType r) = Some b.
Proof.
  intros Hin. rewrite Forall_forall in Htyped. destruct (Htyped r Hin) as [H1 H2]. split; [exact H1|]. destruct (base_of (r_baseType r)) as [b|]; [eauto|congruence].
Qed.
Lemma is_type_iff l t : is_type l t = true <-> one_of l t.
Proof.
  unfold is_type, one_of. rewrite existsb_exists. split; intros (n & H1 & H2); exists n; (split; [exact H1|]); [apply str_eqb_eq, H2|subst; apply str_eqb_refl].
Qed.
Lemma commas_same t : MigItem.commas_to_spaces t = V1Mig.commas_to_spaces t.
Proof. reflexivity. Qed.
(** The value of a test that is not on points *)
Lemma value_agrees r id text x : In r rs -> r_split r = 0%nat -> response_id (r_ident r) = response_id id ->
  (r_baseType r = lit "identifier" \/ Shapes.strip text = text) -> r_baseType r <> lit "point" ->
  MakeSingleValue Vv (r_baseType r) text = Ok x ->
  reads x = Some (MigrateV2Value (reads_declaration (whole r (R (response_id id)))) (v1_text rs (Some id) text)).
Proof.
  intros Hin Hs Hid Hst Hpt H. unfold v1_text. rewrite (kind_is r id Hin Hs Hid). cbn [snd].
  destruct (one_of_type r Hin) as [_ (b & Hb)]. unfold MigrateV2Value. cbn [reads_declaration whole d_base]. rewrite Hb.
  unfold MakeSingleValue in H. destruct (str_eqb (r_baseType r) (lit "identifier")) eqn:E1.
  - apply str_eqb_eq in E1. rewrite E1 in *. cbn in Hb. injection Hb as <-.
    change (str_eqb (lit "identifier") (lit "pair") || str_eqb (lit "identifier") (lit "directedPair")) with false in H. cbn iota in H.
    rewrite read_response in H. cbn [bind] in H. injection H as <-. cbn [reads]. change (base_of (lit "identifier")) with (Some BIdentifier).
    rewrite (ident_strip _ (response_id_ident text)), (ident_v2id _ (response_id_ident text)). reflexivity.
  - destruct Hst as [Hst|Hst]; [rewrite Hst, str_eqb_refl in E1; discriminate|]. rewrite Hst.
    destruct (str_eqb (r_baseType r) (lit "pair") || str_eqb (r_baseType r) (lit "directedPair")) eqn:E2; cbn [bind] in H; injection H as <-.
    + cbn [reads]. rewrite Hb. apply orb_true_iff in E2 as [E2|E2]; apply str_eqb_eq in E2; rewrite E2 in Hb; cbn in Hb; injection Hb as <-; reflexivity.
    + cbn [reads]. rewrite Hb. apply orb_false_iff in E2 as [E2 E3]. destruct b; try reflexivity; exfalso;
        unfold base_of in Hb; cbn [assoc] in Hb;
        repeat match type of Hb with (if str_eqb ?a ?b then _ else _) = _ => let E := fresh "E" in destruct (str_eqb a b) eqn:E; [try discriminate Hb; try (apply str_eqb_eq in E; congruence)|] end; try discriminate Hb.
Qed.
Lemma card_known r : In r rs -> r_cardinality r = lit "single" /\ card_of (r_cardinality r) = Some CSingle \/
  str_eqb (r_cardinality r) (lit "single") = false /\ (card_of (r_cardinality r) = Some CMultiple \/ card_of (r_cardinality r) = Some COrdered).
Proof.
  intros Hin. destruct (one_of_type r Hin) as [(c & Hc & ->) _]. destruct Hc as [<-|[<-|[<-|[]]]]; [left|right|right]; (split; [reflexivity|auto]).
Qed.
Lemma equal_agrees case id index text : agrees (TEqual case id index text).
Proof.
  unfold agrees. cbn [faithful CloseTest v1_test MigrateV2Expression]. destruct id as [id|]; [|intros []].
  intros (r & Hin & Hs & Hid & Hi & Hc & Hst) es H. cbn [ReadAttribute] in H. rewrite read_response in H. cbn [bind] in H.
  destruct (response_found r id Hin Hs Hid) as (n & Hn & Hv & Hg & Hf). subst n. unfold CloseEqual in H. rewrite (plain_variable r _ index Hg Hi) in H. cbn [bind] in H.
  destruct (MakeSingleValue Vv (r_baseType r) text) as [val|] eqn:Eval; cbn [bind] in H; [|discriminate].
  destruct (one_of_type r Hin) as [_ (b & Hb)].
  assert (Hval : r_baseType r <> lit "point" -> reads val = Some (MigrateV2Value (reads_declaration (whole r (R (response_id id)))) (v1_text rs (Some id) text)))
    by (intros Hp; exact (value_agrees r id text val Hin Hs Hid Hst Hp Eval)).
  unfold MigrateVarEqual. cbn [v1_name]. rewrite Hv, Hf. set (V := MigrateV2Value _ _) in *.
  cbn [reads_declaration whole d_card d_base]. rewrite Hb. rewrite (plain_v1 _ index Hi). cbn [d_id].
  destruct (card_known r Hin) as [[Hcs Hcc]|[Hcs Hcc]].
  - rewrite Hcs in H. change (str_eqb (lit "single") (lit "single")) with true in H. cbn iota in H. rewrite Hcc.
    destruct (is_type _ (r_baseType r)) eqn:E1.
    + cbn [bind] in H. injection H as <-. apply is_type_iff in E1 as (t & Ht & Et). rewrite Et in *.
      assert (Hp : lit t <> lit "point") by (destruct Ht as [<-|[<-|[<-|[]]]]; discriminate).
      exists (MatchOperator (VariableOperator (R (response_id id))) val), (EMatch [EVariable (R (response_id id)); V]).
      destruct Hc as [->|(_ & t' & Ht' & Et')].
      * exists []. split; [reflexivity|]. split; [|split; [cbn [reads MatchOperator]; rewrite (Hval Hp); reflexivity|constructor]].
        destruct Ht as [<-|[<-|[<-|[]]]]; cbn in Hb; injection Hb as <-; reflexivity.
      * exists []. assert (t = "integer"%string) as ->.
        { destruct Ht as [<-|[<-|[<-|[]]]], Ht' as [<-|[<-|[<-|[]]]]; try reflexivity; discriminate Et'. }
        split; [reflexivity|]. split; [|split; [cbn [reads MatchOperator]; rewrite (Hval Hp); reflexivity|constructor]].
        cbn in Hb; injection Hb as <-; reflexivity.
    + destruct (str_eqb (r_baseType r) (lit "string")) eqn:E2.
      * apply str_eqb_eq in E2. rewrite E2 in *. cbn [bind] in H. injection H as <-. cbn in Hb. injection Hb as <-.
        eexists _, _, []. split; [reflexivity|]. split; [reflexivity|]. split; [cbn [reads]; rewrite Hval by discriminate; reflexivity|constructor].
      * destruct (str_eqb (r_baseType r) (lit "float")) eqn:E3; [|discriminate]. apply str_eqb_eq in E3. rewrite E3 in *. cbn [bind] in H. injection H as <-.
        cbn in Hb. injection Hb as <-. eexists _, _, [WFloatEqual]. split; [reflexivity|]. split; [reflexivity|].
        split; [cbn [reads]; rewrite Hval by discriminate; reflexivity|constructor; [left; reflexivity|constructor]].
  - rewrite Hcs in H. destruct (is_type _ (r_baseType r)) eqn:E1; [|discriminate]. cbn [bind] in H. injection H as <-.
    apply is_type_iff in E1 as (t & Ht & Et). assert (Hp : r_baseType r <> lit "point") by (rewrite Et; destruct Ht as [<-|[<-|[<-|[<-|[]]]]]; discriminate).
    destruct Hc as [->|(Hc & _)]; [|rewrite Hc, str_eqb_refl in Hcs; discriminate].
    eexists _, (EMember [V; EVariable (R (response_id id))]), []. split; [reflexivity|].
    split; [destruct Hcc as [->| ->]; reflexivity|]. split; [cbn [reads MemberOperator]; rewrite (Hval Hp); reflexivity|constructor].
Qed.
Lemma ineq_agrees op id index text : agrees (TIneq op id index text).
Proof.
  unfold agrees. cbn [faithful CloseTest v1_test MigrateV2Expression]. destruct id as [id|]; [|intros []].
  intros (r & Hin & Hs & Hid & Hi & Hc & (t & Ht & Et) & Hst) es H. cbn [ReadAttribute] in H. rewrite read_response in H. cbn [bind] in H.
  destruct (response_found r id Hin Hs Hid) as (n & Hn & Hv & Hg & Hf). subst n. unfold CloseIneq in H. rewrite (plain_variable r _ index Hg Hi) in H. cbn [bind] in H.
  destruct (MakeSingleValue Vv (r_baseType r) text) as [val|] eqn:Eval; cbn [bind] in H; [|discriminate].
  assert (Hp : r_baseType r <> lit "point") by (rewrite Et; destruct Ht as [<-|[<-|[]]]; discriminate).
  pose proof (value_agrees r id text val Hin Hs Hid (or_intror Hst) Hp Eval) as Hval.
  unfold MigrateVarInequality. cbn [v1_name]. rewrite Hv, Hf. set (V := MigrateV2Value _ _) in *.
  cbn [reads_declaration whole d_card d_base]. rewrite (plain_v1 _ index Hi). cbn [d_id].
  rewrite Hc in *. change (str_eqb (lit "single") (lit "single")) with true in H. cbn iota in H.
  assert (E1 : is_type ["integer"; "float"]%string (r_baseType r) = true) by (apply is_type_iff; exists t; auto). rewrite E1 in H. cbn [bind] in H. injection H as <-.
  eexists _, (ECompare (v1_cmp op) [EVariable (R (response_id id)); V]), []. split; [reflexivity|].
  split; [rewrite Et; destruct Ht as [<-|[<-|[]]]; reflexivity|]. split; [|constructor]. cbn [reads]. rewrite Hval. destruct op; reflexivity.
Qed.
Lemma inside_agrees a id index text : agrees (TInside a id index text).
Proof.
  unfold agrees. cbn [faithful CloseTest]. destruct a as [a|]; [|intros []]. destruct id as [id|]; [|intros []]. cbn [v1_test MigrateV2Expression].
  intros (r & Hin & Hs & Hid & Hi & Hc & Ht & l & Hl & Hn4) es H. cbn [ReadAttribute] in H. rewrite read_response in H. cbn [bind] in H.
  destruct (response_found r id Hin Hs Hid) as (n & Hn & Hv & Hg & Hf). subst n. unfold CloseInside in H.
  destruct (ConvertAreaCoords (Some a) text) as [[sh cs]|] eqn:Ec; cbn [bind] in H; [|discriminate].
  rewrite (plain_variable r _ index Hg Hi) in H. cbn [bind] in H. injection H as <-.
  destruct (coords_same _ _ _ _ _ Ec Hl Hn4) as (shape & Hsh & Hco & Hw).
  unfold MigrateVarInside. cbn [v1_name]. rewrite Hv, Hf. cbn [reads_declaration whole d_card d_base]. rewrite Hc, Ht.
  change (card_of (lit "single")) with (Some CSingle). change (base_of (lit "point")) with (Some BPoint). cbn iota.
  rewrite Hco. cbn [bind]. rewrite (plain_v1 _ index Hi). cbn [d_id].
  eexists _, _, (area_log a text ++ []). split; [reflexivity|]. split; [reflexivity|]. rewrite app_nil_r. split; [|exact Hw]. cbn [reads]. rewrite Hsh. reflexivity.
Qed.

Lemma map_concat_agree : forall l, Forall agrees l -> Forall (faithful rs) l -> forall es, map_concat (CloseTest Vv s) l = Ok es ->
  exists ys w, lmapM (MigrateV2Expression i) (map (v1_test rs R) l) = Ok (ys, w) /\ all_some reads es = Some ys /\ Forall harmless w /\ length es = length l.
Proof.
  induction l as [|e l IH]; intros Ha Hf es H; cbn [map_concat] in H.
  { injection H as <-. exists [], []. repeat split; constructor. }
  apply Forall_cons_iff in Ha as [Ha Ha']. apply Forall_cons_iff in Hf as [Hf Hf'].
  destruct (CloseTest Vv s e) as [es1|] eqn:E1; cbn [bind] in H; [|discriminate].
  destruct (map_concat (CloseTest Vv s) l) as [es2|] eqn:E2; cbn [bind] in H; [|discriminate]. injection H as <-.
  destruct (Ha Hf _ E1) as (x & y & w1 & -> & Hm & Hr & Hw1). destruct (IH Ha' Hf' _ eq_refl) as (ys & w2 & Hm2 & Hr2 & Hw2 & Hlen).
  exists (y :: ys), (w1 ++ w2 ++ []). cbn [map lmapM]. rewrite Hm. unfold lbind at 1. cbn [bind]. fold (lmapM (MigrateV2Expression i)). rewrite Hm2. cbn.
  split; [rewrite ?app_nil_r; reflexivity|]. split; [cbn [app all_some]; rewrite Hr; fold (all_some reads); rewrite Hr2; reflexivity|].
  split; [rewrite app_nil_r; apply Forall_app; auto|]. now rewrite Hlen.
Qed.
Definition faithful_all := fix all (l : list test) : Prop := match l with [] => True | e :: l' => faithful rs e /\ all l' end.
Lemma faithful_all_iff l : faithful_all l <-> Forall (faithful rs) l.
Proof. induction l as [|e l IH]; cbn [faithful_all]; [split; [constructor|auto]|]. rewrite IH, Forall_cons_iff. tauto. Qed.
Lemma one_agrees : forall l, Forall agrees l -> Forall (faithful rs) l -> l <> [] -> forall es, map_concat (CloseTest Vv s) l = Ok es ->
  es <> [] /\ (forall x, es = [x] -> exists e, l = [e]).
Proof.
  intros l Ha Hf Hl es H. destruct (map_concat_agree l Ha Hf es H) as (ys & w & _ & _ & _ & Hlen). split.
  - destruct es; [destruct l; [congruence|discriminate Hlen]|discriminate].
  - intros x ->. destruct l as [|e [|]]; try discriminate Hlen. eauto.
Qed.
Lemma test_agrees e : agrees e.
Proof.
  induction e using test_ind'; try (intros []; fail).
  - apply equal_agrees.
  - apply ineq_agrees.
  - apply inside_agrees.
  - intros _ es H. cbn [CloseTest] in H. injection H as <-. eexists _, _, [WOther]. split; [reflexivity|]. split; [reflexivity|]. split; [reflexivity|].
    constructor; [right; right; reflexivity|constructor].
  - intros Hf es H1. cbn [faithful] in Hf. destruct Hf as [Hl Hf]. change (faithful_all l) in Hf. apply faithful_all_iff in Hf. cbn [CloseTest] in H1.
    destruct (map_concat (CloseTest Vv s) l) as [es1|] eqn:E1; cbn [bind] in H1; [|discriminate].
    destruct l as [|e [|e2 l]]; [congruence| |].
    + destruct (map_concat_agree _ H Hf _ E1) as (ys & w & Hm & Hr & Hw & Hlen). destruct es1 as [|x [|]]; try discriminate Hlen. injection H1 as <-.
      cbn [map_concat] in E1. apply Forall_cons_iff in H as [H _]. apply Forall_cons_iff in Hf as [Hf _].
      destruct (CloseTest Vv s e) as [es1|] eqn:E2; cbn [bind] in E1; [|discriminate]. rewrite app_nil_r in E1. injection E1 as ->.
      destruct (H Hf _ E2) as (x' & y & w' & [= <-] & Hm' & Hr' & Hw').
      exists (NotOperator x), (ENot y), (w' ++ []). split; [reflexivity|]. cbn [v1_test MigrateV2Expression]. rewrite Hm'. split; [reflexivity|].
      split; [cbn [reads]; rewrite Hr'; reflexivity|]. rewrite app_nil_r. exact Hw'.
    + destruct (map_concat_agree _ H Hf _ E1) as (ys & w & Hm & Hr & Hw & Hlen). destruct es1 as [|x [|x2 es1]]; try discriminate Hlen. injection H1 as <-.
      exists (NotOperator (MultiOperator (lit "and") (x :: x2 :: es1))), (ENot (EAnd ys)), ((w ++ []) ++ []). split; [reflexivity|].
      change (v1_test rs R (TNot (e :: e2 :: l))) with (V1Not (Some (V1And (map (v1_test rs R) (e :: e2 :: l))))). cbn [MigrateV2Expression]. fold (lmapM (MigrateV2Expression i)).
      change (map (v1_test rs R) (e :: e2 :: l)) with (v1_test rs R e :: map (v1_test rs R) (e2 :: l)) in *.
      rewrite Hm. split; [reflexivity|]. rewrite !app_nil_r. split; [|exact Hw]. cbn [reads]. fold (all_some reads). rewrite Hr. reflexivity.
  - intros Hf es H1. cbn [faithful] in Hf. destruct Hf as [Hl Hf]. change (faithful_all l) in Hf. apply faithful_all_iff in Hf. cbn [CloseTest] in H1.
    destruct (map_concat (CloseTest Vv s) l) as [es1|] eqn:E1; cbn [bind] in H1; [|discriminate]. injection H1 as <-.
    destruct (map_concat_agree _ H Hf _ E1) as (ys & w & Hm & Hr & Hw & Hlen). exists (MultiOperator (lit "and") es1), (EAnd ys), (w ++ []). split; [reflexivity|].
    cbn [v1_test MigrateV2Expression]. destruct l as [|e l]; [congruence|]. cbn [map] in *. fold (lmapM (MigrateV2Expression i)). rewrite Hm. split; [reflexivity|].
    rewrite app_nil_r. split; [|exact Hw]. cbn [reads]. fold (all_some reads). rewrite Hr. reflexivity.
  - intros Hf es H1. cbn [faithful] in Hf. destruct Hf as [Hl Hf]. change (faithful_all l) in Hf. apply faithful_all_iff in Hf. cbn [CloseTest] in H1.
    destruct (map_concat (CloseTest Vv s) l) as [es1|] eqn:E1; cbn [bind] in H1; [|discriminate]. injection H1 as <-.
    destruct (map_concat_agree _ H Hf _ E1) as (ys & w & Hm & Hr & Hw & Hlen). exists (MultiOperator (lit "or") es1), (EOr ys), (w ++ []). split; [reflexivity|].
    cbn [v1_test MigrateV2Expression]. destruct l as [|e l]; [congruence|]. cbn [map] in *. fold (lmapM (MigrateV2Expression i)). rewrite Hm. split; [reflexivity|].
    rewrite app_nil_r. split; [|exact Hw]. cbn [reads]. fold (all_some reads). rewrite Hr. reflexivity.
Qed.
Lemma condition_agrees l x : l <> [] -> Forall (faithful rs) l -> CloseConditionVar Vv s l = Ok x ->
  exists y w, MigrateConditionVar i (map (v1_test rs R) l) = Ok (y, w) /\ reads x = Some y /\ Forall harmless w.
Proof.
  intros Hl Hf H. unfold CloseConditionVar in H. destruct (map_concat (CloseTest Vv s) l) as [es|] eqn:E; cbn [bind] in H; [|discriminate].
  assert (Ha : Forall agrees l) by (apply Forall_forall; intros; apply test_agrees).
  destruct (map_concat_agree _ Ha Hf _ E) as (ys & w & Hm & Hr & Hw & Hlen).
  destruct l as [|e [|e2 l]]; [congruence| |].
  - destruct es as [|x' [|]]; try discriminate Hlen. injection H as <-. cbn [map MigrateConditionVar].
    cbn [map_concat] in E. apply Forall_cons_iff in Hf as [Hf _].
    destruct (CloseTest Vv s e) as [es1|] eqn:E2; cbn [bind] in E; [|discriminate]. rewrite app_nil_r in E. injection E as ->.
    destruct (test_agrees e Hf _ E2) as (z & y & w' & [= <-] & Hm' & Hr' & Hw'). eauto.
  - destruct es as [|x' [|x2 es]]; try discriminate Hlen. injection H as <-. exists (EAnd ys), (w ++ []).
    change (map (v1_test rs R) (e :: e2 :: l)) with (v1_test rs R e :: v1_test rs R e2 :: map (v1_test rs R) l) in *.
    cbn [MigrateConditionVar]. rewrite Hm. split; [reflexivity|]. rewrite app_nil_r. split; [|exact Hw]. cbn [reads]. fold (all_some reads). rewrite Hr. reflexivity.
Qed.
End Agree.
