(** Versions of products, language tags and dates. *)
From Coq Require Import Lia Zify Permutation Sorted.
From Verif Require Import Py Iso IsoSpec IsoProofs IsoProofs2 Dec XmlUtils Imscp ImscpProofs HttpCore HttpParams HttpHeaders HttpSpec
  HttpProofs HttpProofs2 HttpProofs3 HttpProofs4.
Open Scope Z_scope.

(** ** Explode *)
Lemma digit_model c : IsDIGIT c = digit c.
Proof. unfold IsDIGIT, digit. lia. Qed.
Definition kind (k : bool) (s : str) : Prop := Forall (fun c => digit c = k) s.
Definition begins (k : bool) (s : str) : Prop := match s with c :: _ => digit c = k | [] => True end.
Lemma runs_nonempty s : Forall (fun r => r <> []) (runs s).
Proof.
  induction s as [|c s IH]; [constructor|]. cbn [runs]. destruct (runs s) as [|[|d r] rs] eqn:E.
  - now repeat constructor.
  - now repeat constructor.
  - destruct (Bool.eqb _ _); repeat constructor; try easy; try (now apply Forall_inv_tail in IH).
Qed.
Lemma runs_cons c s : runs (c :: s) = match s with
  | [] => [[c]]
  | d :: _ => if Bool.eqb (digit c) (digit d) then (c :: hd [] (runs s)) :: tl (runs s) else [c] :: runs s
  end /\ (forall d s', s = d :: s' -> exists r rs, runs s = (d :: r) :: rs).
Proof.
  revert c. induction s as [|d s IH]; intros c; [split; [reflexivity|discriminate]|].
  assert (X : exists r rs, runs (d :: s) = (d :: r) :: rs).
  { destruct (IH d) as [E _]. destruct s as [|e s]; [now exists [], []|].
    rewrite E. destruct (Bool.eqb _ _); [now exists (hd [] (runs (e :: s))), (tl (runs (e :: s)))|now exists [], (runs (e :: s))]. }
  split; [|intros d' s' H; inversion H; subst; exact X].
  destruct X as (r & rs & X). change (runs (c :: d :: s)) with
    (match runs (d :: s) with (d :: r) :: rs => if Bool.eqb (digit c) (digit d) then (c :: d :: r) :: rs else [c] :: (d :: r) :: rs | _ => [[c]] end).
  rewrite X. cbn [hd tl]. reflexivity.
Qed.
Lemma runs_run k : forall a s, a <> [] -> kind k a -> begins (negb k) s -> runs (a ++ s) = a :: runs s.
Proof.
  induction a as [|c a IH]; intros s N K B; [easy|]. apply Forall_cons_iff in K as [Kc K].
  cbn [app]. rewrite (proj1 (runs_cons c (a ++ s))). destruct a as [|d a].
  - cbn [app]. destruct s as [|e s]; [reflexivity|]. cbn in B. rewrite Kc, B. now destruct k.
  - cbn [app]. rewrite Kc, (Forall_inv K). rewrite Bool.eqb_reflx.
    change (d :: a ++ s) with ((d :: a) ++ s). rewrite IH by easy. reflexivity.
Qed.
Lemma kind_split k s : exists a b, s = a ++ b /\ kind k a /\ begins (negb k) b.
Proof.
  induction s as [|c s (a & b & -> & K & B)]; [exists [], []; repeat split; constructor|].
  destruct (Bool.bool_dec (digit c) k) as [E|E].
  - exists (c :: a), b. repeat split; [now constructor|exact B].
  - exists [], (c :: a ++ b). repeat split; [constructor|]. cbn. destruct (digit c), k; easy.
Qed.
Lemma digit_run_spec a b : kind true a -> begins false b -> digit_run (a ++ b) = (a, b).
Proof.
  induction 1 as [|c a H _ IH]; intros B.
  - cbn [app]. destruct b as [|c b]; [reflexivity|]. cbn [digit_run]. now rewrite digit_model, B.
  - cbn [app digit_run]. now rewrite digit_model, H, IH.
Qed.
Definition dot_end (r : str) : Prop := r = [] \/ exists r', r = 46 :: r'.
Lemma runs_kind k a : kind k a -> runs a = match a with [] => [] | _ => [a] end.
Proof.
  intros K. destruct a as [|c a]; [reflexivity|]. rewrite <- (app_nil_r (c :: a)) at 1. now rewrite (runs_run k).
Qed.
Lemma part_num d : d <> [] -> kind true d -> part d = VNum (int_digits d).
Proof. intros N K. destruct d as [|c d]; [easy|]. cbn [part]. now rewrite (Forall_inv K). Qed.
Lemma flush_part m : kind false m -> flush m = map part (runs m).
Proof.
  intros K. rewrite (runs_kind false m K). destruct m as [|c m]; [reflexivity|]. cbn. now rewrite (Forall_inv K).
Qed.
Lemma runs_mod m d s : kind false m -> d <> [] -> kind true d -> begins false s ->
  map part (runs (m ++ d ++ s)) = flush m ++ VNum (int_digits d) :: map part (runs s).
Proof.
  intros M N D B. rewrite (flush_part m M). destruct m as [|c m].
  - cbn [app runs map]. rewrite (runs_run true d s N D B). cbn [map]. now rewrite part_num.
  - rewrite (runs_kind false (c :: m) M). rewrite (runs_run false (c :: m)); [|easy|exact M|].
    + rewrite (runs_run true d s N D B). cbn [map app]. now rewrite (part_num d N D).
    + destruct d as [|x d]; [easy|]. cbn. exact (Forall_inv D).
Qed.
Lemma item_loop_more r : dot_end r -> forall f s vitem m, vitem <> [] -> kind false m -> ~ In 46 s ->
  (length (s ++ r) < f)%nat ->
  item_loop f (s ++ r) vitem m = Ok (vitem ++ map part (runs (m ++ s)), r).
Proof.
  intros R. induction f as [|f IH]; intros s vitem m V M N F; [lia|].
  destruct s as [|c s].
  - cbn [app]. rewrite app_nil_r, <- (flush_part m M). destruct R as [->|[r' ->]]; reflexivity.
  - cbn [app item_loop]. replace (c =? 46) with false by (symmetry; apply Z.eqb_neq; intros ->; apply N; now left).
    destruct (digit c) eqn:D.
    + destruct (kind_split true (c :: s)) as (a & b & E & K & B).
      destruct a as [|x a]; [cbn [app] in E; subst b; cbn in B; congruence|]. cbn [app] in E. inversion E; subst x s.
      assert (B' : begins false (b ++ r)).
      { destruct b as [|y b]; [|exact B]. cbn [app]. destruct R as [->|[r' ->]]; [exact I|reflexivity]. }
      replace (c :: (a ++ b) ++ r) with ((c :: a) ++ b ++ r) by (cbn; now rewrite app_assoc).
      rewrite digit_run_spec by assumption.
      rewrite IH; [| |constructor| |].
      * rewrite <- !app_assoc. do 3 f_equal. cbn [app]. symmetry.
        change (c :: a ++ b) with ((c :: a) ++ b). rewrite runs_mod by easy. reflexivity.
      * now destruct vitem.
      * intros X. apply N. right. apply in_app_iff. now right.
      * revert F. cbn [app length]. rewrite !app_length. lia.
    + cbn [digit_run]. rewrite digit_model, D. rewrite IH; [| | | |].
      * replace (match vitem with [] => [VNum (-1)] | _ => vitem end) with vitem by now destruct vitem.
        now rewrite <- app_assoc.
      * now destruct vitem.
      * apply Forall_app. now repeat constructor.
      * intros X. apply N. now right.
      * revert F. cbn [app length]. lia.
Qed.
Lemma item_loop_spec r s f : dot_end r -> ~ In 46 s -> (length (s ++ r) < f)%nat ->
  item_loop f (s ++ r) [] [] = Ok (component s, r).
Proof.
  intros R N F. destruct f as [|f]; [lia|]. destruct s as [|c s].
  - destruct R as [->|[r' ->]]; reflexivity.
  - cbn [app item_loop]. replace (c =? 46) with false by (symmetry; apply Z.eqb_neq; intros ->; apply N; now left).
    destruct (digit c) eqn:D.
    + destruct (kind_split true (c :: s)) as (a & b & E & K & B).
      destruct a as [|x a]; [cbn [app] in E; subst b; cbn in B; congruence|]. cbn [app] in E. inversion E; subst x s.
      assert (B' : begins false (b ++ r)).
      { destruct b as [|y b]; [|exact B]. cbn [app]. destruct R as [->|[r' ->]]; [exact I|reflexivity]. }
      replace (c :: (a ++ b) ++ r) with ((c :: a) ++ b ++ r) by (cbn; now rewrite app_assoc).
      rewrite digit_run_spec by assumption.
      rewrite item_loop_more; [|exact R|easy|constructor| |].
      * cbn [app flush component]. rewrite D. cbn [app]. do 2 f_equal.
        change (c :: a ++ b) with ([] ++ (c :: a) ++ b). rewrite runs_mod; [reflexivity|constructor|easy|exact K|exact B].
      * intros X. apply N. right. apply in_app_iff. now right.
      * revert F. cbn [app length]. rewrite !app_length. lia.
    + cbn [digit_run]. rewrite digit_model, D. rewrite item_loop_more; [|exact R|easy| | |].
      * cbn [app component]. now rewrite D.
      * now repeat constructor.
      * intros X. apply N. now right.
      * revert F. cbn [app length]. lia.
Qed.
Lemma dot_split s : exists p r, s = p ++ r /\ ~ In 46 p /\ dot_end r.
Proof.
  induction s as [|c s (p & r & -> & N & R)]; [exists [], []; repeat split; [easy|now left]|].
  destruct (Z.eq_dec c 46) as [->|E].
  - exists [], (46 :: p ++ r). repeat split; [easy|right; now exists (p ++ r)].
  - exists (c :: p), r. repeat split; [|exact R]. intros [X|X]; [now apply E|now apply N].
Qed.
Lemma components_dot p s : ~ In 46 p -> components (p ++ 46 :: s) = p :: components s.
Proof.
  intros N. unfold components. rewrite split_app_no by exact N.
  destruct (split_on_cons 46 s) as (q & qs & E). rewrite E.
  change (last (p :: q :: qs) []) with (last (q :: qs) []).
  change (removelast (p :: q :: qs)) with (p :: removelast (q :: qs)). now destruct (last (q :: qs) []).
Qed.
Lemma components_last p : ~ In 46 p -> components p = match p with [] => [] | _ => [p] end.
Proof. intros N. unfold components. rewrite split_no by exact N. cbn. now destruct p. Qed.
Lemma explode_loop_spec : forall f s, (length s < f)%nat -> explode_loop f s = Ok (map component (components s)).
Proof.
  induction f as [|f IH]; intros s F; [lia|]. destruct s as [|c s]; [reflexivity|].
  destruct (dot_split (c :: s)) as (p & r & E & N & R).
  change (explode_loop (S f) (c :: s)) with
    ('(i, r) <- item_loop (S (length (c :: s))) (c :: s) [] [] ;;
     is <- explode_loop f (match r with c :: r' => if c =? 46 then r' else r | [] => [] end) ;;
     Ok (i :: is)).
  rewrite E, item_loop_spec; [|exact R|exact N|lia]. cbn [bind].
  destruct R as [->|[r' ->]].
  - rewrite app_nil_r in *. rewrite (components_last p N). subst p.
    destruct f; [cbn in F; lia|]. reflexivity.
  - change (46 =? 46) with true. cbn iota. rewrite IH.
    + cbn [bind]. now rewrite components_dot.
    + assert (L := f_equal (@length Z) E). rewrite app_length in L. cbn [length] in *. lia.
Qed.
Lemma Explode_spec s : Explode s = Ok (map component (components s)).
Proof. apply explode_loop_spec. lia. Qed.
Lemma ProductToken_ok t v : exists p, ProductToken t v = Ok p /\ p_token p = t /\ p_version p = v.
Proof. destruct v as [v|]; unfold ProductToken; [rewrite Explode_spec; cbn [bind]|]; eexists; repeat split. Qed.

(** Dotted decimals *)
Lemma digits_kind s : Forall is_dec s -> kind true s.
Proof. intros F. eapply Forall_impl; [|exact F]. intros c. unfold is_dec, digit. lia. Qed.
Lemma component_fmt n : 0 <= n -> component (fmt n) = [VNum n].
Proof.
  intros H. pose proof (fmt_digits n H) as D. pose proof (fmt_not_nil n) as N. pose proof (dval_fmt n H) as V.
  apply digits_kind in D. unfold component. rewrite (runs_kind true _ D). destruct (fmt n) as [|c s] eqn:E; [easy|].
  rewrite (Forall_inv D). cbn [app map part]. rewrite (Forall_inv D). unfold decimal. unfold dval in V. now rewrite V.
Qed.
Lemma components_dotted l : Forall (fun n => 0 <= n) l -> map component (components (dotted l)) = map (fun n => [VNum n]) l.
Proof.
  induction l as [|n l IH]; intros F; [reflexivity|]. apply Forall_cons_iff in F as [Fn F].
  assert (N : ~ In 46 (fmt n)) by (apply fmt_no; [exact Fn|unfold is_dec; lia]).
  destruct l as [|m l].
  - cbn [dotted]. rewrite (components_last _ N). pose proof (fmt_not_nil n). pose proof (component_fmt n Fn).
    destruct (fmt n); [easy|]. cbn [map]. now rewrite H0.
  - change (dotted (n :: m :: l)) with (fmt n ++ 46 :: dotted (m :: l)). rewrite components_dot by exact N.
    rewrite !map_cons. now rewrite component_fmt, IH.
Qed.
Lemma items_cmp_numbers a : forall b,
  (items_cmp (map (fun n => [VNum n]) a) (map (fun n => [VNum n]) b) = Lt <-> numbers_lt a b) /\
  (items_cmp (map (fun n => [VNum n]) a) (map (fun n => [VNum n]) b) = Eq <-> a = b).
Proof.
  induction a as [|x a IH]; intros [|y b].
  - repeat split; try easy; inversion 1.
  - repeat split; try easy; constructor.
  - repeat split; try easy; inversion 1.
  - cbn [map items_cmp item_cmp vcmp]. destruct (IH b) as [IH1 IH2].
    destruct (Z.compare_spec x y) as [->|H|H].
    + cbn [item_cmp]. rewrite IH1, IH2. unfold numbers_lt. repeat split; intros X; [now constructor|inversion X; [lia|assumption]|now subst|congruence].
    + repeat split; intros X; try easy; [now constructor|]. inversion X. lia.
    + repeat split; intros X; try easy; inversion X; lia.
Qed.

(** Longer versions *)
Lemma last_split (s : str) : s <> [] -> exists s' c, s = s' ++ [c].
Proof. intros N. destruct (exists_last N) as (s' & c & ->). now exists s', c. Qed.
Lemma last_app {A} (a b : list A) d : b <> [] -> last (a ++ b) d = last b d.
Proof.
  intros N. induction a as [|x a IH]; [reflexivity|]. cbn [app]. rewrite <- IH.
  destruct (a ++ b) eqn:E; [|reflexivity]. apply app_eq_nil in E. now destruct E.
Qed.
Lemma components_app s t : s <> [] -> last s 0 <> 46 -> components (s ++ 46 :: t) = components s ++ components t.
Proof.
  remember (length s) as n eqn:L. revert s L. induction n as [n IH] using lt_wf_ind. intros s -> N E.
  destruct (dot_split s) as (p & r & -> & Np & R). destruct R as [->|[r' ->]].
  - rewrite app_nil_r in *. rewrite components_dot by exact Np. rewrite (components_last p Np). now destruct p.
  - rewrite <- app_assoc. cbn [app]. rewrite (components_dot p r') by exact Np. rewrite (components_dot p (r' ++ 46 :: t)) by exact Np. cbn [app]. f_equal.
    apply (IH (length r')); [rewrite app_length; cbn; lia|reflexivity| |].
    + intros ->. apply E. now rewrite last_last.
    + intros X. apply E. rewrite last_app by discriminate. destruct r' as [|x r']; [reflexivity|exact X].
Qed.
Lemma items_longer a b : b <> [] -> items_cmp (a ++ b) a = Gt.
Proof.
  intros N. induction a as [|x a IH]; [now destruct b|]. cbn [app items_cmp].
  now rewrite (proj2 (item_cmp_eq x x) eq_refl).
Qed.
Lemma components_nonempty s : s <> [] -> components s <> [].
Proof.
  intros N. destruct (dot_split s) as (p & r & -> & Np & R). destruct R as [->|[r' ->]].
  - rewrite app_nil_r in *. rewrite components_last by exact Np. now destruct p.
  - now rewrite components_dot.
Qed.
(** A modifier: characters of the other kind at the end of a version *)
Lemma runs_app s c d t : digit c <> digit d -> runs (s ++ c :: d :: t) = runs (s ++ [c]) ++ runs (d :: t).
Proof.
  intros N. induction s as [|x s IH].
  - cbn [app]. rewrite (proj1 (runs_cons c (d :: t))). destruct (Bool.eqb _ _) eqn:E; [|reflexivity].
    apply Bool.eqb_prop in E. congruence.
  - cbn [app]. destruct (runs_cons x (s ++ c :: d :: t)) as [-> X]. destruct (runs_cons x (s ++ [c])) as [-> Y].
    rewrite IH. destruct s as [|y s].
    + cbn [app]. destruct (Y c [] eq_refl) as (r & rs & R). cbn [app] in R. rewrite R. cbn [hd tl app].
      now destruct (Bool.eqb (digit x) (digit c)).
    + cbn [app]. destruct (Y y (s ++ [c]) eq_refl) as (r & rs & R). cbn [app] in R. rewrite R. cbn [hd tl app].
      now destruct (Bool.eqb (digit x) (digit y)).
Qed.
Lemma component_longer s c d t : digit c <> digit d -> exists ps, ps <> [] /\
  component (s ++ c :: d :: t) = component (s ++ [c]) ++ ps.
Proof.
  intros N. exists (map part (runs (d :: t))). split.
  - destruct t as [|e t]; [easy|]. destruct (runs_cons d (e :: t)) as [-> _]. now destruct (Bool.eqb _ _).
  - unfold component. rewrite runs_app by exact N. rewrite map_app.
    destruct s as [|x s]; cbn [app]; now rewrite <- app_assoc.
Qed.
Lemma item_longer a b : b <> [] -> item_cmp (a ++ b) a = Lt.
Proof.
  intros N. induction a as [|x a IH]; [now destruct b|]. cbn [app item_cmp].
  replace (vcmp x x) with Eq by (symmetry; apply vcmp_preorder). exact IH.
Qed.
Lemma components_modifier s c d t : c <> 46 -> ~ In 46 (d :: t) ->
  exists l p, components (s ++ [c]) = l ++ [p ++ [c]] /\ components (s ++ c :: d :: t) = l ++ [p ++ c :: d :: t].
Proof.
  intros C D. remember (length s) as n eqn:L. revert s L. induction n as [n IH] using lt_wf_ind. intros s ->.
  destruct (dot_split s) as (p & r & -> & Np & R). destruct R as [->|[r' ->]].
  - rewrite app_nil_r. exists [], p. split.
    + rewrite components_last; [now destruct p|]. rewrite in_app_iff. cbn [In]. intuition.
    + rewrite components_last; [now destruct p|]. rewrite in_app_iff. cbn [In] in *. intuition.
  - rewrite <- !app_assoc. cbn [app]. rewrite (components_dot p (r' ++ [c])), (components_dot p (r' ++ c :: d :: t)) by exact Np.
    destruct (IH (length r')) with (s := r') as (l & q & E1 & E2); [rewrite app_length; cbn; lia|reflexivity|].
    exists (p :: l), q. rewrite E1, E2. now split.
Qed.
Lemma items_cmp_last l x y : items_cmp (l ++ [x]) (l ++ [y]) = match item_cmp x y with Eq => Eq | c => c end.
Proof.
  induction l as [|a l IH]; [cbn; now destruct (item_cmp x y)|]. cbn [app items_cmp].
  now rewrite (proj2 (item_cmp_eq a a) eq_refl).
Qed.
