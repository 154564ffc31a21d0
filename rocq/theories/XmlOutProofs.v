(** Canonical children: proofs. *)
From Coq Require Import Lia.
From Verif Require Import Py XmlChars XmlDoc XmlOut.
From Verif Require Import XmlCharsSpec XmlDocSpec XmlOutSpec XmlCharsProofs XmlCharsProofs2 XmlDocProofs.
Open Scope Z_scope.
Open Scope list_scope.

Lemma is_space_IsS c : is_space c = IsS c.
Proof.
  apply eq_true_iff_eq. rewrite IsS_iff. unfold is_space, xml_space. rewrite !orb_true_iff, !Z.eqb_eq. tauto.
Qed.
Lemma words_ext p q s : (forall c, p c = q c) -> forall cur, words_loop p cur s = words_loop q cur s.
Proof. intros H. induction s as [|c s IH]; intros cur; [reflexivity|]. cbn [words_loop]. rewrite H. destruct (q c), cur; now rewrite !IH. Qed.
Lemma words_is s : words is_space s = words IsS s.
Proof. apply words_ext, is_space_IsS. Qed.
Lemma starts_is s : starts_spaced s = head_space s.
Proof. destruct s; [reflexivity|]. apply is_space_IsS. Qed.
Lemma ends_is s : ends_spaced s = last_space s.
Proof. apply starts_is. Qed.

Lemma blank_words s : blank s = true <-> words IsS s = [].
Proof.
  unfold words. induction s as [|c s IH]; [easy|]. cbn [blank forallb words_loop]. rewrite is_space_IsS. fold (blank s).
  destruct (IsS c); [exact IH|]. split; [discriminate|]. destruct (words_cur IsS s [c]) as (w & l & E); [discriminate|congruence].
Qed.
Lemma words_fine s : Forall (fun w : str => w <> [] /\ Forall (fun c => IsS c = false) w) (words IsS s).
Proof. apply words_good. constructor. Qed.

(** What CollapseSpace gives, in the words of the specification *)
Lemma collapse_blank s m : blank s = true -> CollapseSpace s m = [32].
Proof. intros H. now apply CollapseSpace_blank, blank_words. Qed.
Lemma collapse_squeeze s m : blank s = false -> CollapseSpace s m = squeeze (negb m) true s.
Proof.
  intros H. rewrite CollapseSpace_words; [|intros E; apply blank_words in E; congruence].
  unfold squeeze. rewrite words_is, starts_is, ends_is, andb_true_l, andb_comm. reflexivity.
Qed.
Lemma squeeze_split l s : squeeze l true s = squeeze l false s ++ (if ends_spaced s then [32] else []).
Proof. unfold squeeze. cbn [andb]. now rewrite app_nil_r, app_assoc. Qed.
Lemma squeeze_body s : blank s = false -> exists c r, spaced (words IsS s) = c :: r /\ IsS c = false.
Proof.
  intros H. destruct (spaced_ends (words IsS s)) as [(c & r & E & Hc) _]; [intros E; apply blank_words in E; congruence|apply words_fine|eauto].
Qed.
Lemma squeeze_tail s l : blank s = false -> last_space (squeeze l false s) = false.
Proof.
  intros H. unfold squeeze. rewrite words_is. cbn [andb]. rewrite app_nil_r.
  apply (spaced_ends (words IsS s)); [intros E; apply blank_words in E; congruence|apply words_fine].
Qed.
Lemma squeeze_not_blank s l r : blank s = false -> blank (squeeze l r s) = false.
Proof.
  intros H. destruct (squeeze_body s H) as (c & x & E & Hc). unfold squeeze. rewrite words_is, E.
  unfold blank. rewrite !forallb_app. cbn [forallb]. rewrite is_space_IsS, Hc. cbn. apply andb_false_r.
Qed.
Lemma squeeze_not_space s l r : blank s = false -> squeeze l r s <> [32].
Proof. intros H E. pose proof (squeeze_not_blank s l r H) as G. rewrite E in G. discriminate. Qed.
Lemma squeeze_nil s l r : blank s = false -> squeeze l r s <> [].
Proof. intros H E. pose proof (squeeze_not_blank s l r H) as G. rewrite E in G. discriminate. Qed.
Lemma last_last_space (s : str) : last_space s = false -> last s 0 <> 32.
Proof.
  destruct s as [|c s] using rev_ind; [cbn; discriminate|]. rewrite last_last. unfold last_space. rewrite rev_app_distr. cbn.
  intros H ->. discriminate.
Qed.
Lemma str_eqb_neq a b : a <> b -> str_eqb a b = false.
Proof. intros H. destruct (str_eqb a b) eqn:E; [|reflexivity]. apply str_eqb_eq in E. contradiction. Qed.
(** The last text of a list *)
Lemma strip_squeeze s l : blank s = false ->
  (if last (squeeze l true s) 0 =? 32 then removelast (squeeze l true s) else squeeze l true s) = squeeze l false s.
Proof.
  intros H. rewrite squeeze_split. destruct (ends_spaced s).
  - rewrite last_last. cbn. apply removelast_last.
  - rewrite app_nil_r. pose proof (last_last_space _ (squeeze_tail s l H)) as G. apply Z.eqb_neq in G. now rewrite G.
Qed.

(** ** The function and the specification *)
Section Lists.
Context {E : Type}.
Implicit Types l m : list (str + E).
Lemma merged_text a b l : merged (inl a :: inl b :: l) = merged (inl (a ++ b) :: l) .
Proof. cbn [merged]. destruct (merged l) as [|[u|e] m]; [reflexivity| |reflexivity]. now rewrite app_assoc. Qed.
Lemma concat_snoc (data : list str) s : concat (data ++ [s]) = concat data ++ s.
Proof. rewrite concat_app. cbn. now rewrite app_nil_r. Qed.
Lemma later_elem e m : later (inr e :: m) = inr e :: later m.
Proof. destruct m; reflexivity. Qed.
Lemma later_both s e m : later (inl s :: inr e :: m) = inl (if blank s then [32] else squeeze true true s) :: inr e :: later m.
Proof. cbn [later]. destruct m; reflexivity. Qed.
Lemma merged_head s l : exists u m, merged (inl s :: l) = inl u :: m.
Proof. cbn [merged]. destruct (merged l) as [|[u|e] m]; eauto. Qed.
Lemma middle_text s : CollapseSpace s false = if blank s then [32] else squeeze true true s.
Proof. destruct (blank s) eqn:B; [now apply collapse_blank|now apply (collapse_squeeze s false)]. Qed.

Lemma loop_later l : forall data, canonical_loop data false l =
  later (match data with [] => merged l | _ => merged (inl (concat data) :: l) end).
Proof.
  induction l as [|[s|e] l IH]; intros data.
  - destruct data as [|d data]; [reflexivity|]. cbn [canonical_loop merged later]. set (x := concat (d :: data)).
    destruct (blank x) eqn:B; [now rewrite (collapse_blank x false B)|]. rewrite (collapse_squeeze x false B). cbn [negb].
    rewrite (str_eqb_neq _ _ (squeeze_not_space x true true B)). rewrite <- (strip_squeeze x true B).
    now destruct (last (squeeze true true x) 0 =? 32).
  - cbn [canonical_loop]. rewrite IH. destruct data as [|d data]; cbn [app].
    + change (concat [s]) with (s ++ []). now rewrite app_nil_r.
    + rewrite app_comm_cons, concat_snoc, <- merged_text. reflexivity.
  - cbn [canonical_loop]. rewrite IH. destruct data as [|d data]; [cbn [merged app]; now rewrite later_elem|].
    cbn [negb orb app]. rewrite middle_text. change (merged (inl (concat (d :: data)) :: inr e :: l)) with (inl (concat (d :: data)) :: inr e :: merged l).
    now rewrite later_both.
Qed.
Lemma loop_first l : forall data, data <> [] -> (exists e, In (inr e) l) -> canonical_loop data true l =
  match merged (inl (concat data) :: l) with
  | inl s :: m => (if blank s then [] else [inl (squeeze false true s)]) ++ later m
  | m => m end.
Proof.
  induction l as [|[s|e] l IH]; intros data Hd (x & Hx); [destruct Hx| |].
  - destruct Hx as [Hx|Hx]; [discriminate|]. cbn [canonical_loop]. rewrite IH; [|now destruct data|eauto].
    rewrite concat_snoc, <- merged_text. reflexivity.
  - cbn [canonical_loop]. rewrite loop_later. destruct data as [|d data]; [congruence|]. cbn [negb orb].
    change (merged (inl (concat (d :: data)) :: inr e :: l)) with (inl (concat (d :: data)) :: inr e :: merged l). cbv iota.
    rewrite later_elem. f_equal. set (y := concat (d :: data)). destruct (blank y) eqn:B.
    + now rewrite (collapse_blank y true B).
    + rewrite (collapse_squeeze y true B). cbn [negb]. now rewrite (str_eqb_neq _ _ (squeeze_not_space y false true B)).
Qed.
Lemma merged_not_one s l : (exists e, In (inr e) l) -> forall u, merged (inl s :: l) <> [inl u].
Proof.
  revert s. induction l as [|[x|e] l IH]; intros s (y & Hy) u; [destruct Hy| |cbn; discriminate].
  destruct Hy as [Hy|Hy]; [discriminate|]. rewrite merged_text. apply IH. eauto.
Qed.

(** The children are canonical if there is at most one, or an element among them. *)
Lemma canonical_children l : (length l <= 1)%nat \/ (exists e, In (inr e) l) -> GetCanonicalChildren false l = canonical_list l.
Proof.
  intros H. destruct l as [|[s|e] l]; [reflexivity| |].
  - destruct l as [|c l].
    + cbn. f_equal. f_equal. destruct (blank s) eqn:B; [now apply collapse_blank|now apply (collapse_squeeze s true)].
    + assert (He : exists e, In (inr e) (c :: l)).
      { destruct H as [H|(e & [H|H])]; [cbn in H; lia|discriminate|eauto]. }
      unfold GetCanonicalChildren. rewrite loop_first by (discriminate || exact He). unfold canonical_list.
      change (concat [s]) with (s ++ []). rewrite app_nil_r.
      pose proof (merged_not_one s _ He) as G. destruct (merged_head s (c :: l)) as (u & m & Em). rewrite Em in *.
      destruct m; [now destruct (G u)|reflexivity].
  - assert (G : canonical_list (inr e :: l) = inr e :: later (merged l)) by (unfold canonical_list; cbn [merged]; apply later_elem).
    rewrite G. destruct l; [reflexivity|]. unfold GetCanonicalChildren. now rewrite loop_later.
Qed.
End Lists.

(** ** What happens to elements does not matter *)
Definition on_elem {E F} (f : E -> F) (c : str + E) : str + F := match c with inl s => inl s | inr e => inr (f e) end.
Lemma loop_map {E F} (f : E -> F) (l : list (str + E)) : forall data m,
  canonical_loop data m (map (on_elem f) l) = map (on_elem f) (canonical_loop data m l).
Proof.
  induction l as [|[s|e] l IH]; intros data m; cbn [map on_elem canonical_loop].
  - destruct data; [reflexivity|]. cbv zeta. repeat match goal with |- context [if ?b then _ else _] => destruct b end; reflexivity.
  - apply IH.
  - rewrite map_app. cbn [map on_elem]. rewrite IH. f_equal. destruct data; [reflexivity|]. cbv zeta.
    match goal with |- context [if ?b then _ else _] => destruct b end; reflexivity.
Qed.
Lemma canonical_map {E F} (f : E -> F) p (l : list (str + E)) :
  GetCanonicalChildren p (map (on_elem f) l) = map (on_elem f) (GetCanonicalChildren p l).
Proof.
  destruct l as [|c l]; [reflexivity|]. cbn [map]. unfold GetCanonicalChildren. destruct p; [reflexivity|].
  destruct l as [|d l]; [destruct c; reflexivity|]. cbn [map]. rewrite <- !map_cons. destruct c as [s|e]; cbn [on_elem].
  - apply loop_map.
  - cbn [map on_elem]. f_equal. apply (loop_map f (d :: l)).
Qed.
