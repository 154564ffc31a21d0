(** Writing: proofs. *)
From Coq Require Import Lia Permutation.
From Verif Require Import Py XmlChars XmlDoc XmlOut.
From Verif Require Import XmlCharsSpec XmlDocSpec XmlOutSpec XmlCharsProofs XmlCharsProofs2 XmlDocProofs XmlDocProofs2 XmlOutProofs XmlOutProofs2.
Open Scope Z_scope.
Open Scope list_scope.

(** ** Escaping, piece by piece *)
Definition safe (c : Z) : Prop := char c /\ c <> 13 /\ c <> 60 /\ c <> 62.
Definition piece (c : Z) (p : str) : Prop :=
  (p = [c] /\ c <> 38 /\ c <> 60 /\ c <> 62 /\ c <> 13) \/ (reference p c /\ Forall safe p /\ c <> 9 /\ c <> 10).
(** What the two functions have in common *)
Definition faithful (esc : str -> bool -> str) : Prop := forall s, Forall char s ->
  (exists ps, Forall2 piece s ps /\ esc s false = concat ps) /\
  (exists q ps, (q = 34 \/ q = 39) /\ Forall2 (fun c p => piece c p /\ p <> [q]) s ps /\ esc s true = [q] ++ concat ps ++ [q]).

Lemma reference_safe r c : reference r c -> Forall safe r.
Proof.
  assert (A : forall s, forallb (fun c => (32 <=? c) && (c <=? 126) && negb (c =? 60) && negb (c =? 62)) s = true -> Forall safe s).
  { intros s H. apply Forall_forall. intros x Hx. rewrite forallb_forall in H. specialize (H x Hx). unfold safe, char. lia. }
  intros H. destruct H; try (apply A; reflexivity).
  - rewrite !Forall_app. split; [apply A; reflexivity|]. split; [|apply A; reflexivity].
    eapply Forall_impl; [|eassumption]. unfold hex_digit, safe, char. cbv beta. lia.
  - rewrite !Forall_app. split; [apply A; reflexivity|]. split; [|apply A; reflexivity].
    eapply Forall_impl; [|eassumption]. unfold dec_digit, safe, char. cbv beta. lia.
Qed.
Lemma piece_ref p c : reference p c -> c <> 9 -> c <> 10 -> piece c p.
Proof. intros H H9 H10. right. split; [exact H|]. split; [now apply reference_safe in H|auto]. Qed.
Lemma ref_not_one p c q : reference p c -> p <> [q].
Proof. intros H. destruct H; try discriminate. Qed.
Lemma piece_safe c p : char c -> piece c p -> Forall safe p.
Proof. intros Hc [(-> & H)|(_ & H & _)]; [|exact H]. constructor; [|constructor]. unfold safe. tauto. Qed.

Lemma esc_piece c : piece c (esc_char c).
Proof.
  unfold esc_char.
  destruct (c =? 38) eqn:E1; [apply Z.eqb_eq in E1; subst; apply piece_ref; [constructor|lia..]|].
  destruct (c =? 60) eqn:E2; [apply Z.eqb_eq in E2; subst; apply piece_ref; [constructor|lia..]|].
  destruct (c =? 62) eqn:E3; [apply Z.eqb_eq in E3; subst; apply piece_ref; [constructor|lia..]|].
  destruct (c =? 13) eqn:E4; [apply Z.eqb_eq in E4; subst; apply piece_ref; [apply ref_D|lia..]|].
  left. split; [reflexivity|]. lia.
Qed.
Lemma Forall2_map_r {A B} (R : A -> B -> Prop) (f : A -> B) l : (forall x, In x l -> R x (f x)) -> Forall2 R l (map f l).
Proof. induction l as [|x l IH]; intros H; cbn; constructor; [apply H; now left|]. apply IH. intros y Hy. apply H. now right. Qed.
Lemma esc_one c q : q = 34 \/ q = 39 -> esc_char c = [q] -> c = q.
Proof.
  intros Hq. unfold esc_char. destruct (c =? 38); [discriminate|]. destruct (c =? 60); [discriminate|].
  destruct (c =? 62); [discriminate|]. destruct (c =? 13); [discriminate|]. now intros [= ->].
Qed.
Lemma esc_quoted q r s : q = 34 \/ q = 39 -> reference r q ->
  exists ps, Forall2 (fun c p => piece c p /\ p <> [q]) s ps /\
    (if (0 <? count q s)%nat then esc_quote q r (map esc_char s) else map esc_char s) = ps.
Proof.
  intros Hq Hr. eexists. split; [|reflexivity]. destruct (0 <? count q s)%nat eqn:Ec.
  - unfold esc_quote. rewrite map_map. apply Forall2_map_r. intros c _. destruct (str_eqb (esc_char c) [q]) eqn:E.
    + apply str_eqb_eq in E. apply (esc_one c q Hq) in E. subst. split; [apply piece_ref; [exact Hr|lia..]|now apply (ref_not_one r q q)].
    + split; [apply esc_piece|]. intros G. rewrite G, str_eqb_refl in E. discriminate.
  - apply Forall2_map_r. intros c Hc. split; [apply esc_piece|]. intros G. apply (esc_one c q Hq) in G. subst.
    revert Hc. apply filter_length_0. unfold count in Ec. lia.
Qed.
Lemma faithful_esc : faithful EscapeCharData.
Proof.
  intros s _. split.
  - exists (map esc_char s). split; [|reflexivity]. apply Forall2_map_r. intros c _. apply esc_piece.
  - unfold EscapeCharData. destruct (count 39 s <? count 34 s)%nat.
    + destruct (esc_quoted 39 (lit "&apos;") s (or_intror eq_refl) ref_apos) as (ps & H & E). exists 39, ps. rewrite E. auto.
    + destruct (esc_quoted 34 (lit "&quot;") s (or_introl eq_refl) ref_quot) as (ps & H & E). exists 34, ps. rewrite E. auto.
Qed.
Lemma esc7_piece q qs c : 0 <= c -> match q with Some x => (x = 34 \/ x = 39) /\ reference qs x | None => True end ->
  piece c (esc_char7 q qs c) /\ match q with Some x => esc_char7 q qs c <> [x] | None => True end.
Proof.
  intros Hc Hq.
  assert (R : forall r, reference r c -> c <> 9 -> c <> 10 -> piece c r /\ match q with Some x => r <> [x] | None => True end).
  { intros r Hr H9 H10. split; [now apply piece_ref|]. destruct q; [|exact I]. now apply (ref_not_one r c). }
  destruct (Z_gt_le_dec c 0x7F) as [H|H].
  - destruct (esc7_ref q qs c H) as (w & ->). apply R; [apply ref_X, Hc|lia..].
  - unfold esc_char7. replace (c >? 0x7F) with false by (symmetry; lia).
    destruct (c =? 60) eqn:E2; [apply Z.eqb_eq in E2; subst; apply R; [constructor|lia..]|].
    destruct (c =? 38) eqn:E1; [apply Z.eqb_eq in E1; subst; apply R; [constructor|lia..]|].
    destruct (c =? 62) eqn:E3; [apply Z.eqb_eq in E3; subst; apply R; [constructor|lia..]|].
    destruct (c =? 13) eqn:E4; [apply Z.eqb_eq in E4; subst; apply R; [apply ref_D|lia..]|].
    destruct q as [x|].
    + destruct Hq as [Hx Hr]. destruct (c =? x) eqn:E5; [apply Z.eqb_eq in E5; subst; apply R; [exact Hr|lia..]|].
      split; [left; split; [reflexivity|lia]|]. intros [= ->]. lia.
    + split; [left; split; [reflexivity|lia]|exact I].
Qed.
Lemma faithful_esc7 : faithful EscapeCharData7.
Proof.
  intros s Hs. assert (H0 : forall c, In c s -> 0 <= c).
  { intros c Hc. rewrite Forall_forall in Hs. apply Hs in Hc. unfold char in Hc. lia. }
  split.
  - exists (map (esc_char7 None []) s). unfold EscapeCharData7. rewrite flat_map_concat_map. split; [|reflexivity].
    apply Forall2_map_r. intros c Hc. now apply esc7_piece; [apply H0|].
  - assert (G : forall q qs, q = 34 \/ q = 39 -> reference qs q -> exists q' ps, (q' = 34 \/ q' = 39) /\
        Forall2 (fun c p => piece c p /\ p <> [q']) s ps /\ [q] ++ flat_map (esc_char7 (Some q) qs) s ++ [q] = [q'] ++ concat ps ++ [q']).
    { intros q qs Hq Hr. exists q, (map (esc_char7 (Some q) qs) s). rewrite flat_map_concat_map. split; [exact Hq|]. split; [|reflexivity].
      apply Forall2_map_r. intros c Hc. apply (esc7_piece (Some q) qs c); [now apply H0|auto]. }
    unfold EscapeCharData7. destruct (mem 39 s); [|destruct (mem 34 s)]; apply G; auto; (apply ref_22 || apply ref_27).
Qed.

(** ** Text and values *)
Section Writing.
Variable esc : str -> bool -> str.
Hypothesis Hesc : faithful esc.

Lemma pieces_safe s ps : Forall char s -> Forall2 piece s ps -> Forall safe (concat ps).
Proof.
  intros Hs H. induction H as [|c p s ps Hp H IH]; [constructor|]. apply Forall_cons_iff in Hs as [Hc Hs]. cbn. apply Forall_app.
  split; [now apply piece_safe with c|auto].
Qed.
Lemma quoted_pieces q s ps : Forall2 (fun c p => piece c p /\ p <> [q]) s ps -> Forall2 piece s ps.
Proof. induction 1; constructor; tauto. Qed.
Lemma esc_safe s b : Forall char s -> Forall safe (esc s b).
Proof.
  intros Hs. destruct (Hesc s Hs) as [(ps & H & E) (q & ps' & Hq & H' & E')]. destruct b.
  - rewrite E'. apply quoted_pieces in H'. pose proof (pieces_safe s ps' Hs H').
    assert (safe q) by (unfold safe, char; lia). rewrite !Forall_app. auto.
  - rewrite E. now apply pieces_safe with s.
Qed.
Definition begins (m : str) : Prop := m = [] \/ exists x, m = 60 :: x.
Lemma text_then_cons c s (l : list node) : text_then [c] (text_then s l) = text_then (c :: s) l.
Proof.
  destruct s as [|d s]; [reflexivity|]. unfold text_then at 2 3. destruct l as [|[u|e] l]; reflexivity.
Qed.
Lemma no_end_here c p m : Forall safe p -> begins m -> forall x, c :: p ++ m <> lit "]]>" ++ x.
Proof.
  intros Hp Hm x. change (lit "]]>" ++ x) with (93 :: 93 :: 62 :: x). intros [= _ E].
  destruct p as [|a [|b p]]; cbn [app] in E.
  - destruct Hm as [->|(y & ->)]; discriminate.
  - injection E as _ E. destruct Hm as [->|(y & ->)]; discriminate.
  - injection E as _ E _. apply Forall_cons_iff in Hp as [_ Hp]. apply Forall_cons_iff in Hp as [Hp _]. unfold safe in Hp. lia.
Qed.
Lemma pieces_text s ps m l : Forall char s -> Forall2 piece s ps -> begins m -> content plain m l ->
  content plain (concat ps ++ m) (text_then s l).
Proof.
  intros Hs H Hm Hl. induction H as [|c p s ps Hp H IH]; [exact Hl|]. apply Forall_cons_iff in Hs as [Hc Hs].
  cbn [concat]. rewrite <- app_assoc, <- text_then_cons. specialize (IH Hs). destruct Hp as [(-> & H1 & H2 & H3 & H4)|(Hr & _ & H9 & H10)].
  - cbn [app]. apply co_char; [exact H2|exact H1| |exact IH]. apply no_end_here; [|exact Hm]. now apply pieces_safe with s.
  - apply co_ref; [split; assumption|exact IH].
Qed.
Lemma esc_text_content s m l : Forall char s -> begins m -> content plain m l -> content plain (esc s false ++ m) (text_then s l).
Proof. intros Hs Hm Hl. destruct (Hesc s Hs) as [(ps & H & ->) _]. now apply pieces_text. Qed.
Lemma pieces_att q s ps : Forall char s -> q = 34 \/ q = 39 -> Forall2 (fun c p => piece c p /\ p <> [q]) s ps -> att_value q (concat ps) (map flat_char s).
Proof.
  intros Hs Hq H. induction H as [|c p s ps [Hp Hn] H IH]; [constructor|]. apply Forall_cons_iff in Hs as [Hc Hs]. specialize (IH Hs).
  cbn [concat map]. unfold flat_char at 1. destruct Hp as [(-> & H1 & H2 & H3 & H4)|(Hr & _ & H9 & H10)].
  - cbn [app]. assert (c <> q) by congruence. destruct ((c =? 9) || (c =? 10)) eqn:E.
    + apply av_space; [unfold xml_space; lia|exact IH].
    + destruct (Z.eq_dec c 32) as [->|H32]; [apply av_space; [now left|exact IH]|].
      apply av_char; auto. unfold xml_space. lia.
  - replace ((c =? 9) || (c =? 10)) with false by (symmetry; lia). apply av_ref; [split; assumption|exact IH].
Qed.

(** ** Attributes *)
Definition flat_attr (x : str * str) : str * str := let '(k, v) := x in (k, map flat_char v).
Lemma flat_fst a : map fst (map flat_attr a) = map fst a.
Proof. rewrite map_map. apply map_ext. now intros [k v]. Qed.
Lemma insert_flat x l : insert_attr (flat_attr x) (map flat_attr l) = map flat_attr (insert_attr x l).
Proof.
  destruct x as [k v]. induction l as [|[k' v'] l IH]; [reflexivity|]. cbn [map insert_attr flat_attr fst]. destruct (cmp_str k k'); try reflexivity.
  cbn [map flat_attr]. f_equal. exact IH.
Qed.
Lemma sort_flat a : SortNames (map flat_attr a) = map flat_attr (SortNames a).
Proof. induction a as [|x a IH]; [reflexivity|]. cbn. fold (SortNames a) (SortNames (map flat_attr a)). rewrite IH. apply insert_flat. Qed.
Lemma write_attributes a : (forall k v, In (k, v) a -> bmp_name k /\ Forall char v) ->
  attributes plain (map flat_attr (SortNames a)) (WriteXMLAttributes esc a).
Proof.
  intros H. unfold WriteXMLAttributes.
  assert (G : forall k v, In (k, v) (SortNames a) -> bmp_name k /\ Forall char v).
  { intros k v K. apply H. eapply Permutation_in; [apply sort_perm|exact K]. }
  clear H. induction (SortNames a) as [|[k v] l IH]; [constructor; constructor|]. cbn [map flat_map flat_attr].
  destruct (G k v (or_introl eq_refl)) as [Hk Hv]. destruct (Hesc v Hv) as [_ (q & ps & Hq & Hp & ->)].
  rewrite <- !app_assoc. apply as_cons; [split; [discriminate|repeat constructor]|exact Hk| |exact Hq|now apply pieces_att|].
  - exists [], []. split; [constructor|]. split; [constructor|reflexivity].
  - apply IH. intros k' v' K. apply G. now right.
Qed.
Lemma flat_preserve v : str_eqb (map flat_char v) (lit "preserve") = str_eqb v (lit "preserve").
Proof.
  apply eq_true_iff_eq. rewrite !str_eqb_eq. split.
  - intros E. assert (G : forall (u w : str), ~ In 32 w -> map flat_char u = w -> u = w).
    { induction u as [|c u IH]; intros [|d w] Hw; cbn; try easy. intros [= E1 E2]. f_equal; [|apply IH; [intros K; apply Hw; now right|exact E2]].
      unfold flat_char in E1. destruct ((c =? 9) || (c =? 10)); [destruct Hw; left; congruence|exact E1]. }
    apply G in E; [exact E|]. vm_compute. intuition discriminate.
  - intros ->. reflexivity.
Qed.
Lemma preserves_flat p a : preserves p (map flat_attr a) = preserves p a.
Proof.
  unfold preserves. assert (E : lookup xml_space_attr (map flat_attr a) = option_map (map flat_char) (lookup xml_space_attr a)).
  { induction a as [|[k v] a IH]; [reflexivity|]. cbn [map lookup flat_attr]. destruct (str_eqb xml_space_attr k); [reflexivity|exact IH]. }
  rewrite E. destruct (lookup xml_space_attr a) as [v|]; [|reflexivity]. apply flat_preserve.
Qed.
Lemma flat_eq n a ch : flat (Elem n a ch) = Elem n (map flat_attr a) (map (on_elem flat) ch).
Proof. reflexivity. Qed.
Lemma canon_flat p n a ch : canon p (flat (Elem n a ch)) = Elem n (map flat_attr (SortNames a))
  (map (on_elem (fun e => canon (preserves p a) (flat e))) (GetCanonicalChildren (preserves p a) ch)).
Proof. rewrite flat_eq, canon_eq, preserves_flat, sort_flat, canonical_map, map_on_comp. reflexivity. Qed.

(** ** Elements *)
Lemma element_begins D w t : element D w t -> exists x, w = 60 :: x.
Proof. intros []; eexists; reflexivity. Qed.
Definition put (c : str + str) : str := match c with inl s => esc s false | inr x => x end.
Lemma write_content (f : tree -> str) (g : tree -> tree) l : separate l -> (forall s, In (inl s) l -> Forall char s) ->
  (forall e, In (inr e) l -> element plain (f e) (g e)) ->
  content plain (flat_map put (map (on_elem f) l)) (map (on_elem g) l).
Proof.
  intros H. induction H as [|s Hs|e l H IH|s e l Hs H IH]; intros Ht He.
  - constructor.
  - cbn [map on_elem flat_map put]. pose proof (esc_text_content s [] [] (Ht s (or_introl eq_refl)) (or_introl eq_refl) (co_nil plain)) as G.
    destruct s; [congruence|exact G].
  - cbn [map on_elem flat_map put]. apply co_element; [apply He; now left|]. apply IH; intros x K; [apply Ht|apply He]; now right.
  - assert (E1 : element plain (f e) (g e)) by (apply He; right; now left).
    assert (K : content plain (flat_map put (map (on_elem f) (inr e :: l))) (map (on_elem g) (inr e :: l))).
    { cbn [map on_elem flat_map put]. apply co_element; [exact E1|]. apply IH; intros x K; [apply Ht|apply He]; right; now right. }
    destruct (element_begins _ _ _ E1) as (x & Ex).
    change (flat_map put (map (on_elem f) (inl s :: inr e :: l))) with (esc s false ++ flat_map put (map (on_elem f) (inr e :: l))).
    assert (B : begins (flat_map put (map (on_elem f) (inr e :: l)))).
    { right. cbn [map on_elem flat_map put]. rewrite Ex. eexists. reflexivity. }
    pose proof (esc_text_content s _ _ (Ht s (or_introl eq_refl)) B K) as G. destruct s; [congruence|exact G].
Qed.
Lemma generate_eq p ws n a ch : GenerateXML esc p ws (Elem n a ch) =
  match map (on_elem (GenerateXML esc (preserves p a) [])) (GetCanonicalChildren (preserves p a) ch) with
  | [] => ws ++ lit "<" ++ n ++ WriteXMLAttributes esc a ++ lit "/>"
  | l => ws ++ lit "<" ++ n ++ WriteXMLAttributes esc a ++ lit ">" ++ flat_map put l ++ lit "</" ++ n ++ lit ">"
  end.
Proof.
  cbn [GenerateXML]. cbv zeta. pose proof (canonical_map (GenerateXML esc (preserves p a) []) (preserves p a) ch) as M.
  unfold on_elem at 1 in M. rewrite M. destruct (map _ _) as [|x l]; reflexivity.
Qed.
Lemma generate_ws p ws t : GenerateXML esc p ws t = ws ++ GenerateXML esc p [] t.
Proof. destruct t as [n a ch]. rewrite !generate_eq. destruct (map _ _); reflexivity. Qed.
Lemma canon_texts p ch : separate ch -> (forall s, In (inl s) ch -> Forall char s) -> forall s, In (inl s) (GetCanonicalChildren p ch) -> Forall char s.
Proof.
  intros Hs H s K. apply Forall_forall. intros c Hc. destruct (proj2 (canon_in p ch Hs) s c K Hc) as [->|(u & Hu & Hc')]; [unfold char; lia|].
  apply H in Hu. rewrite Forall_forall in Hu. auto.
Qed.
Lemma generate_element t : writable t -> forall p, element plain (GenerateXML esc p [] t) (canon p (flat t)).
Proof.
  induction t as [n a ch IH] using tree_induct. intros H p. apply every_in in H as (Hn & Hd & Ha & Hs & Ht & He).
  rewrite generate_eq, canon_flat. set (q := preserves p a). set (l := GetCanonicalChildren q ch).
  assert (Hl : separate l) by now apply canon_sep.
  assert (C : content plain (flat_map put (map (on_elem (GenerateXML esc q [])) l)) (map (on_elem (fun e => canon q (flat e))) l)).
  { apply write_content; [exact Hl|now apply canon_texts|]. intros e K. apply IH; [|apply He]; now apply (canon_in q ch Hs). }
  assert (A : attributes plain (map flat_attr (SortNames a)) (WriteXMLAttributes esc a)) by (apply write_attributes; exact Ha).
  assert (N : NoDup (map fst (map flat_attr (SortNames a)))) by (rewrite flat_fst; now apply sort_dict).
  destruct l as [|x l].
  - cbn [map app]. apply el_empty; assumption.
  - cbn [map] in *. cbn [app]. change (n ++ lit ">") with (n ++ [] ++ lit ">"). apply el_full; [exact Hn|exact A|exact N|exact C|constructor].
Qed.

(** ** Characters *)
Definition fine (c : Z) : Prop := char c /\ c <> 13.
Lemma safe_fine s : Forall safe s -> Forall fine s.
Proof. apply Forall_impl. unfold safe, fine. tauto. Qed.
Lemma name_fine n : bmp_name n -> Forall fine n.
Proof.
  intros [(c & r & -> & Hc & Hr) _].
  assert (G : forall c, name_char c -> fine c).
  { intros x. unfold name_char, name_start_char, fine, char. lia. }
  constructor; [apply G; now left|]. eapply Forall_impl; [exact G|exact Hr].
Qed.
Lemma fine_by s : forallb (fun c => (32 <=? c) && (c <=? 126)) s = true -> Forall fine s.
Proof. intros H. apply Forall_forall. intros c Hc. rewrite forallb_forall in H. apply H in Hc. unfold fine, char. lia. Qed.
Lemma attributes_fine a : (forall k v, In (k, v) a -> bmp_name k /\ Forall char v) -> Forall fine (WriteXMLAttributes esc a).
Proof.
  intros H. apply Forall_forall. intros c Hc. unfold WriteXMLAttributes in Hc. apply in_flat_map in Hc as ([k v] & K & Hc).
  apply (Permutation_in _ (sort_perm a)) in K. destruct (H k v K) as [Hk Hv]. revert c Hc. apply Forall_forall.
  rewrite !Forall_app. split; [now apply fine_by|]. split; [now apply name_fine|]. split; [now apply fine_by|]. now apply safe_fine, esc_safe.
Qed.
Lemma generate_fine t : writable t -> forall p, Forall fine (GenerateXML esc p [] t).
Proof.
  induction t as [n a ch IH] using tree_induct. intros H p. apply every_in in H as (Hn & Hd & Ha & Hs & Ht & He).
  rewrite generate_eq. set (q := preserves p a).
  assert (C : Forall fine (flat_map put (map (on_elem (GenerateXML esc q [])) (GetCanonicalChildren q ch)))).
  { apply Forall_forall. intros c Hc. apply in_flat_map in Hc as (x & K & Hc). apply in_map_iff in K as ([s|e] & <- & K); cbn [on_elem put] in Hc.
    - revert c Hc. apply Forall_forall. apply safe_fine, esc_safe. eapply canon_texts; eauto.
    - revert c Hc. apply Forall_forall. apply IH; [|apply He]; now apply (canon_in q ch Hs). }
  pose proof (attributes_fine a Ha) as A. pose proof (name_fine n Hn) as N.
  destruct (map _ _); rewrite !Forall_app; repeat split; auto; apply fine_by; reflexivity.
Qed.

(** ** Canonical elements are written alike *)
Lemma generate_canon t : tidy t -> forall p, GenerateXML esc p [] (canon p t) = GenerateXML esc p [] t.
Proof.
  induction t as [n a ch IH] using tree_induct. intros H p. apply every_in in H as (_ & Hd & _ & Hs & _ & He).
  rewrite canon_eq, !generate_eq, preserves_sort by exact Hd. set (q := preserves p a).
  assert (A : WriteXMLAttributes esc (SortNames a) = WriteXMLAttributes esc a) by (unfold WriteXMLAttributes; now rewrite sort_idem).
  rewrite A, canonical_map, canon_idem, map_on_comp by exact Hs.
  assert (M : map (on_elem (fun x => GenerateXML esc q [] (canon q x))) (GetCanonicalChildren q ch) =
              map (on_elem (GenerateXML esc q [])) (GetCanonicalChildren q ch)).
  { apply map_on_ext. intros e K. apply IH; [|apply He]; now apply (canon_in q ch Hs). }
  now rewrite M.
Qed.

(** ** Documents *)
Definition declaration : str := lit "<?xml version=""1.0"" encoding=""UTF-8""?>".
Lemma declaration_ok : xml_decl declaration.
Proof.
  exists (lit " version=""1.0"""), (lit " encoding=""UTF-8"""), [], []. split.
  - exists (lit " "), (lit "="), (lit """1.0"""). split; [split; [discriminate|repeat constructor]|]. split; [exists [], []; split; [constructor|]; split; [constructor|reflexivity]|].
    split; [|reflexivity]. exists 34, (lit "1.0"). split; [now left|]. split; [|reflexivity]. exists (lit "0"). split; [discriminate|]. split; [|reflexivity].
    constructor; [vm_compute; split; discriminate|constructor].
  - split.
    + right. exists (lit " "), (lit "="), (lit """UTF-8"""). split; [split; [discriminate|repeat constructor]|]. split; [exists [], []; split; [constructor|]; split; [constructor|reflexivity]|].
      split; [|reflexivity]. exists 34, (lit "UTF-8"). split; [now left|]. split; [|reflexivity]. exists 85, (lit "TF-8"). split; [reflexivity|].
      split; [left; lia|]. assert (G : Forall (fun c => (65 <=? c) && (c <=? 90) || (48 <=? c) && (c <=? 57) || (c =? 45) = true) (lit "TF-8")) by (repeat constructor).
      eapply Forall_impl; [|exact G]. intros c. cbv beta. unfold latin, dec_digit. intros K. rewrite !orb_true_iff, !andb_true_iff in K. lia.
    + split; [now left|]. split; [constructor|reflexivity].
Qed.
Lemma document_eq tab t : GenerateDocument esc tab t = declaration ++ [10] ++ GenerateXML esc false [] t.
Proof. unfold GenerateDocument. destruct tab; [|reflexivity]. now rewrite generate_ws. Qed.
Lemma document_written tab t : writable t -> document plain not_declared (fun z => z = []) (GenerateDocument esc tab t) (canon false (flat t)).
Proof.
  intros H. exists declaration, [10], (GenerateXML esc false [] t), [], []. split; [rewrite document_eq; cbn [app]; now rewrite !app_nil_r|].
  split; [right; apply declaration_ok|]. split; [apply mi_space; [right; right; now left|constructor]|]. split; [now apply generate_element|].
  split; [constructor|reflexivity].
Qed.
Lemma document_fine tab t : writable t -> Forall fine (GenerateDocument esc tab t).
Proof.
  intros H. rewrite document_eq, !Forall_app. split; [now apply fine_by|]. split; [|now apply generate_fine].
  constructor; [unfold fine, char; lia|constructor].
Qed.
Lemma document_opened tab t : writable t -> opened (GenerateDocument esc tab t) (GenerateDocument esc tab t).
Proof.
  intros H. pose proof (document_fine tab t H) as F. exists (GenerateDocument esc tab t). split.
  - clear H. induction F as [|c s [_ Hc] _ IH]; [constructor|]. now constructor.
  - right. split; [reflexivity|]. rewrite document_eq. intros y E. discriminate E.
Qed.
End Writing.

(** ** Values on one line *)
Lemma flat_same t : one_line t -> flat t = t.
Proof.
  induction t as [n a ch IH] using tree_induct. intros H. apply every_in in H as (_ & _ & Ha & _ & _ & He). rewrite flat_eq. f_equal.
  - transitivity (map (fun x => x) a); [|apply map_id]. apply map_ext_in. intros [k v] K. cbn. f_equal. apply Ha in K as [K9 K10].
    transitivity (map (fun x => x) v); [|apply map_id]. apply map_ext_in. intros c Hc. unfold flat_char.
    destruct (Z.eqb_spec c 9); [subst; contradiction|]. destruct (Z.eqb_spec c 10); [subst; contradiction|reflexivity].
  - transitivity (map (fun x => x) ch); [|apply map_id]. apply map_ext_in. intros [s|e] K; cbn; [reflexivity|]. f_equal. apply IH; [exact K|]. now apply He.
Qed.
Lemma flat_dict a : dictionary a -> dictionary (map flat_attr a).
Proof. unfold dictionary. now rewrite flat_fst. Qed.
Lemma flat_tidy t : tidy t -> tidy (flat t).
Proof.
  induction t as [n a ch IH] using tree_induct. intros H. apply every_in in H as (_ & Hd & _ & Hs & _ & He). rewrite flat_eq. constructor; auto.
  - now apply flat_dict.
  - now apply sep_map.
  - intros e K. apply in_map_iff in K as ([s|x] & E & K); cbn in E; [discriminate|]. injection E as <-. apply IH; [exact K|]. now apply He.
Qed.
