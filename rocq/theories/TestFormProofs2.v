From Verif Require Import Py TestForm TestFormSpec TestFormProofs.
From Coq Require Import Sorted Permutation Lia.
Open Scope Z_scope.

Section Proofs.
Variable parts : str -> option part.
Hypothesis parts_ident : forall id p, parts id = Some p -> ident p = id.

Notation sub_spec := (bool -> list str -> Prop).

(** ** Step 4 *)
Record pre := mkPre { p_child : nat; p_block : option (list str); p_pool : list str }.

Definition flat (b : option (list str)) : form_ :=
  match b with Some l => map Some l | None => [None] end.

Definition pre_ok (shuffle expand : bool) (children : list part) (subs : list sub_spec) (r : pre)
    : Prop :=
  exists c sub, nth_error children (p_child r) = Some c /\ nth_error subs (p_child r) = Some sub /\
    if in_place shuffle c
    then (exists b, p_block r = Some b /\ block_ok c sub expand b) /\ p_pool r = []
    else p_block r = None /\ p_pool r <> [] /\
         if split c then sub false (p_pool r) else p_pool r = [ident c].

(** A call of Select gives a form without holes. *)
Definition sub_ok (c : part) (f : selector) (S : sub_spec) : Prop :=
  forall e rs out rs', f e rs = Ok (out, rs') ->
    exists l, out = map Some l /\ S e l /\ (split c = true -> l <> []).

Definition subs_ok (children : list part) (fs : list selector) (Ss : list sub_spec) : Prop :=
  length fs = length children /\ length Ss = length children /\
  forall i c f S, nth_error children i = Some c -> nth_error fs i = Some f ->
    nth_error Ss i = Some S -> sub_ok c f S.

Lemma mix_in_spec l sl sl' : mix_in parts (map Some l) sl = Ok sl' -> sl' = sl ++ l.
Proof.
  revert sl. induction l as [|x l IH]; intros sl H; cbn in H.
  - injection H as <-. rewrite app_nil_r. reflexivity.
  - destruct (parts x) as [c|]; [|discriminate]. destruct (fixed c); [discriminate|].
    apply IH in H. rewrite <- app_assoc in H. exact H.
Qed.

Lemma step4_spec shuffle expand children fs Ss : subs_ok children fs Ss ->
  forall selection new sl rs new' sl' rs',
  step4 parts shuffle expand children fs selection new sl rs = Ok (new', sl', rs') ->
  exists ps, map p_child ps = selection /\ Forall (pre_ok shuffle expand children Ss) ps /\
    new' = new ++ concat (map (fun p => flat (p_block p)) ps) /\
    sl' = sl ++ concat (map p_pool ps).
Proof.
  intros (L1 & L2 & Hs). induction selection as [|i selection IH]; intros new sl rs new' sl' rs' H.
  - cbn in H. injection H as <- <- _. exists []. cbn. rewrite !app_nil_r. auto.
  - cbn [step4] in H. unfold bind at 1 in H.
    destruct (index children i) as [c|] eqn:Ec; [|discriminate]. apply index_Ok in Ec.
    unfold bind at 1 in H.
    destruct (index fs i) as [f|] eqn:Ef; [|discriminate]. apply index_Ok in Ef.
    destruct (nth_error Ss i) as [S|] eqn:ES.
    2:{ apply nth_error_None in ES. assert (i < length children)%nat by (apply nth_error_Some; congruence). lia. }
    specialize (Hs i c f S Ec Ef ES).
    destruct (shuffle && negb (fixed c)) eqn:Em.
    + assert (Hp : in_place shuffle c = false).
      { unfold in_place. apply andb_prop in Em as [-> Em]. destruct (fixed c); [discriminate|reflexivity]. }
      destruct (split c) eqn:Esp.
      * unfold bind at 1 in H. destruct (f false rs) as [[gs rs1]|] eqn:E1; [|discriminate].
        destruct (Hs _ _ _ _ E1) as (l & -> & HS & Hl).
        unfold bind in H. destruct (mix_in parts (map Some l) sl) as [sl1|] eqn:E2; [|discriminate].
        apply mix_in_spec in E2. subst sl1.
        apply IH in H as (ps & <- & H1 & -> & ->).
        exists (mkPre i None l :: ps). cbn [map p_child concat p_pool p_block flat].
        rewrite <- !app_assoc. split; [reflexivity|]. split; [|split; reflexivity].
        constructor; [|exact H1]. exists c, S. cbn. rewrite Hp, Esp. auto 6.
      * apply IH in H as (ps & <- & H1 & -> & ->).
        exists (mkPre i None [ident c] :: ps). cbn [map p_child concat p_pool p_block flat].
        rewrite <- !app_assoc. split; [reflexivity|]. split; [|split; reflexivity].
        constructor; [|exact H1]. exists c, S. cbn [p_child p_pool p_block]. rewrite Hp, Esp.
        repeat split; auto. discriminate.
    + assert (Hp : in_place shuffle c = true).
      { unfold in_place. destruct shuffle; [|reflexivity]. cbn in *. destruct (fixed c); [reflexivity|discriminate]. }
      destruct (is_section c && expand) eqn:Ee.
      * unfold bind in H. destruct (f true rs) as [[gs rs1]|] eqn:E1; [|discriminate].
        destruct (Hs _ _ _ _ E1) as (l & -> & HS & _).
        apply IH in H as (ps & <- & H1 & -> & ->).
        exists (mkPre i (Some (ident c :: l ++ [close (ident c)])) [] :: ps).
        cbn [map p_child concat p_pool p_block flat app]. rewrite map_app.
        rewrite <- !app_assoc. split; [reflexivity|]. split; [|split; reflexivity].
        constructor; [|exact H1]. exists c, S. cbn [p_child p_pool p_block]. rewrite Hp.
        repeat split; auto. eexists. split; [reflexivity|]. unfold block_ok. rewrite Ee. eauto.
      * apply IH in H as (ps & <- & H1 & -> & ->).
        exists (mkPre i (Some [ident c]) [] :: ps).
        cbn [map p_child concat p_pool p_block flat app].
        rewrite <- !app_assoc. split; [reflexivity|]. split; [|split; reflexivity].
        constructor; [|exact H1]. exists c, S. cbn [p_child p_pool p_block]. rewrite Hp.
        repeat split; auto. eexists. split; [reflexivity|]. unfold block_ok. rewrite Ee. reflexivity.
Qed.

(** ** Step 5 *)
Definition skel (obs : list (option (list str))) : form_ := concat (map flat obs).
Definition slots (obs : list (option (list str))) : nat :=
  length (filter (fun o => match o with None => true | _ => false end) obs).

Fixpoint blocks (obs : list (option (list str))) (bs : list (list str)) : list (list str) :=
  match obs with
  | [] => []
  | Some b :: o => b :: blocks o bs
  | None :: o => match bs with b :: bs' => b :: blocks o bs' | [] => [] :: blocks o [] end
  end.

Lemma fill_Some b s l : fill_buckets (map Some b ++ s) l = fill_buckets s l.
Proof. induction b; [reflexivity|assumption]. Qed.

Lemma fill_spec obs l bs rest : fill_buckets (skel obs) l = Ok (bs, rest) ->
  length bs = slots obs /\ concat bs ++ rest = l /\ Forall (fun b => b <> []) bs.
Proof.
  revert l bs rest. induction obs as [|[b|] obs IH]; intros l bs rest H; unfold skel in H; cbn in H.
  - injection H as <- <-. auto.
  - rewrite fill_Some in H. apply IH in H. exact H.
  - destruct l as [|x l]; [discriminate|]. unfold bind in H.
    destruct (fill_buckets _ l) as [[bs1 r1]|] eqn:E; [|discriminate]. injection H as <- <-.
    apply IH in E as (H1 & H2 & H3). cbn. rewrite H2.
    split; [unfold slots in *; cbn; lia|]. split; [reflexivity|]. constructor; [discriminate|exact H3].
Qed.

Lemma append_at_perm i x bs : (i < length bs)%nat ->
  Permutation (concat (append_at i x bs)) (x :: concat bs) /\ length (append_at i x bs) = length bs /\
  (Forall (fun b => b <> []) bs -> Forall (fun b => b <> []) (append_at i x bs)).
Proof.
  revert i. induction bs as [|b bs IH]; intros i Hi; [cbn in Hi; lia|].
  destruct i as [|i]; cbn [append_at concat length].
  - split; [|split; [reflexivity|]].
    + rewrite <- app_assoc. symmetry. apply Permutation_middle.
    + intros H. inversion H; subst. constructor; [|assumption]. destruct b; discriminate.
  - cbn in Hi. destruct (IH i ltac:(lia)) as (H1 & H2 & H3).
    split; [|split; [lia|]].
    + rewrite H1. symmetry. apply Permutation_middle.
    + intros H. inversion H; subst. constructor; auto.
Qed.

Lemma spread_spec l bs rs bs' rs' : spread bs l rs = Ok (bs', rs') ->
  Forall (fun b => b <> []) bs ->
  Permutation (concat bs') (concat bs ++ l) /\ length bs' = length bs /\ Forall (fun b => b <> []) bs'.
Proof.
  revert bs rs. induction l as [|x l IH]; intros bs rs H Hb; cbn in H.
  - injection H as <- _. rewrite app_nil_r. auto.
  - destruct bs as [|b bs]; [discriminate|]. remember (b :: bs) as B.
    destruct (draw (length B) rs) as [i rs1] eqn:E. 
    assert (Hi : (i < length B)%nat) by (eapply draw_lt; [subst; cbn; lia|exact E]).
    destruct (append_at_perm i x B Hi) as (H1 & H2 & H3).
    apply IH in H as (H4 & H5 & H6); [|auto].
    split; [|split; [congruence|exact H6]]. rewrite H4, H1. apply Permutation_middle.
Qed.

Lemma expand_bucket_spec b out : expand_bucket parts b = Ok out ->
  out = map Some b /\ Forall (item_id parts) b.
Proof.
  revert out. induction b as [|x b IH]; intros out H; cbn in H.
  - injection H as <-. auto.
  - destruct (parts x) as [c|] eqn:Ex; [|discriminate]. destruct (is_section c) eqn:Es; [discriminate|].
    unfold bind in H. destruct (expand_bucket parts b) as [r|]; [|discriminate]. injection H as <-.
    destruct (IH _ eq_refl) as [-> H]. split; [reflexivity|]. constructor; [|exact H].
    destruct c as [id r0 f|]; [|discriminate]. apply parts_ident in Ex as Ei. cbn in Ei. subst.
    exists r0, f. exact Ex.
Qed.

Lemma splice_in_Some b s new : splice_in (map Some b ++ s) new = (r <- splice_in s new ;; Ok (map Some b ++ r)).
Proof.
  induction b as [|x b IH]; cbn [map app splice_in].
  - destruct (splice_in s new); reflexivity.
  - rewrite IH. destruct (splice_in s new); reflexivity.
Qed.
Lemma splice_all_Some bs b s :
  splice_all parts bs (map Some b ++ s) = (r <- splice_all parts bs s ;; Ok (map Some b ++ r)).
Proof.
  revert s. induction bs as [|b1 bs IH]; intros s; cbn [splice_all]; [reflexivity|].
  destruct (expand_bucket parts b1) as [new|]; [|reflexivity]. cbn [bind].
  rewrite splice_in_Some. destruct (splice_in s new) as [r|]; [|reflexivity]. cbn [bind]. apply IH.
Qed.

Lemma splice_all_spec obs bs out : length bs = slots obs ->
  splice_all parts bs (skel obs) = Ok out ->
  out = map Some (concat (blocks obs bs)) /\ Forall (Forall (item_id parts)) bs.
Proof.
  revert bs out. induction obs as [|[b|] obs IH]; intros bs out Hl H.
  - destruct bs; [|discriminate]. cbn in H. injection H as <-. auto.
  - unfold skel in H. cbn [map concat flat] in H. rewrite splice_all_Some in H.
    unfold bind in H. fold (skel obs) in H.
    destruct (splice_all parts bs (skel obs)) as [r|] eqn:E; [|discriminate]. injection H as <-.
    apply IH in E as [-> Hf]; [|exact Hl]. cbn [blocks concat]. rewrite map_app. auto.
  - destruct bs as [|b bs]; [discriminate|]. cbn in Hl.
    unfold skel in H. cbn [map concat flat app splice_all splice_in] in H. fold (skel obs) in H.
    unfold bind at 1 in H. destruct (expand_bucket parts b) as [new|] eqn:Eb; [|discriminate].
    apply expand_bucket_spec in Eb as [-> Hb]. cbn [bind] in H.
    rewrite splice_all_Some in H. unfold bind in H.
    destruct (splice_all parts bs (skel obs)) as [r|] eqn:E; [|discriminate]. injection H as <-.
    apply IH in E as [-> Hf]; [|unfold slots in *; lia].
    cbn [blocks concat]. rewrite map_app. auto.
Qed.

Lemma no_slots obs : slots obs = O -> skel obs = map Some (concat (blocks obs [])).
Proof.
  induction obs as [|[b|] obs IH]; intros H; [reflexivity| |discriminate].
  unfold skel in *. cbn. rewrite IH, map_app; [reflexivity|exact H].
Qed.

Fixpoint rows_of (ps : list pre) (bs : list (list str)) : list row :=
  match ps with
  | [] => []
  | p :: ps' =>
      match p_block p with
      | Some b => mkRow (p_child p) b (p_pool p) :: rows_of ps' bs
      | None => match bs with
                | b :: bs' => mkRow (p_child p) b (p_pool p) :: rows_of ps' bs'
                | [] => mkRow (p_child p) [] (p_pool p) :: rows_of ps' []
                end
      end
  end.

Lemma rows_child ps bs : map r_child (rows_of ps bs) = map p_child ps.
Proof.
  revert bs. induction ps as [|p ps IH]; intros bs; [reflexivity|]. cbn.
  destruct (p_block p); [|destruct bs]; cbn; rewrite IH; reflexivity.
Qed.
Lemma rows_pool ps bs : map r_pool (rows_of ps bs) = map p_pool ps.
Proof.
  revert bs. induction ps as [|p ps IH]; intros bs; [reflexivity|]. cbn.
  destruct (p_block p); [|destruct bs]; cbn; rewrite IH; reflexivity.
Qed.
Lemma rows_block ps bs : map r_block (rows_of ps bs) = blocks (map p_block ps) bs.
Proof.
  revert bs. induction ps as [|p ps IH]; intros bs; [reflexivity|]. cbn.
  destruct (p_block p); [|destruct bs]; cbn; rewrite IH; reflexivity.
Qed.

Lemma rows_ok shuffle expand children Ss ps :
  Forall (pre_ok shuffle expand children Ss) ps ->
  forall bs, length bs = slots (map p_block ps) -> Forall (fun b => b <> []) bs ->
  Forall (item_id parts) (concat (map p_pool ps)) ->
  Forall (row_ok parts shuffle expand children Ss) (rows_of ps bs) /\
  map r_block (filter (moves shuffle children) (rows_of ps bs)) = bs.
Proof.
  induction 1 as [|p ps Hp H IH]; intros bs Hl Hb Hi.
  - destruct bs; [|discriminate]. split; [constructor|reflexivity].
  - cbn [map concat] in Hi. apply Forall_app in Hi as [Hi1 Hi2].
    destruct Hp as (c & S & Ec & ES & Hp). unfold slots in Hl. cbn in Hl. cbn [rows_of].
    destruct (in_place shuffle c) eqn:Ei.
    + destruct Hp as [(b & Eb & Hbl) Hpl]. rewrite Eb in *.
      destruct (IH bs Hl Hb Hi2) as [H1 H2]. split.
      * constructor; [|exact H1]. exists c, S. cbn [r_child r_block r_pool]. rewrite Ei. auto.
      * cbn [filter]. unfold moves at 1. cbn [r_child]. rewrite Ec, Ei. exact H2.
    + destruct Hp as (Eb & Hne & Hpl). rewrite Eb in *.
      destruct bs as [|b bs]; [discriminate|]. cbn in Hl. inversion Hb; subst.
      destruct (IH bs ltac:(unfold slots in *; lia) H3 Hi2) as [H4 H5]. split.
      * constructor; [|exact H4]. exists c, S. cbn [r_child r_block r_pool]. rewrite Ei.
        split; [exact Ec|]. split; [exact ES|]. split; [split; [exact Hi1|exact Hpl]|assumption].
      * cbn [filter]. unfold moves at 1. cbn [r_child]. rewrite Ec, Ei. cbn. f_equal. exact H5.
Qed.

Lemma pools_nil shuffle expand children Ss ps :
  Forall (pre_ok shuffle expand children Ss) ps -> concat (map p_pool ps) = [] ->
  slots (map p_block ps) = O.
Proof.
  induction 1 as [|p ps (c & S & _ & _ & Hp) H IH]; [reflexivity|]. cbn. intros E.
  apply app_eq_nil in E as [E1 E2]. destruct (in_place shuffle c).
  - destruct Hp as [(b & Eb & _) _]. rewrite Eb. apply IH, E2.
  - destruct Hp as (_ & Hn & _). contradiction.
Qed.

Lemma select_body_form sel shuffle children fs Ss : subs_ok children fs Ss ->
  forall expand rs out rs', select_body parts sel shuffle children fs expand rs = Ok (out, rs') ->
  exists l, out = map Some l /\ form_body parts sel shuffle children Ss expand l /\
    (1 <= target sel children -> l <> []).
Proof.
  intros Hs expand rs out rs' H. unfold select_body, bind in H.
  destruct (choose sel children rs) as [[s rs1]|] eqn:Ec; [|discriminate].
  apply choose_ok in Ec.
  destruct (step4 _ _ _ _ _ _ _ _ _) as [[[new sl] rs2]|] eqn:E4; [|discriminate].
  apply (step4_spec _ _ _ _ _ Hs) in E4 as (ps & <- & Hps & -> & ->). cbn [app] in H.
  assert (Hnew : concat (map (fun p => flat (p_block p)) ps) = skel (map p_block ps)).
  { unfold skel. rewrite map_map. reflexivity. }
  rewrite Hnew in H.
  assert (Hmain : exists bs, length bs = slots (map p_block ps) /\ Forall (fun b => b <> []) bs /\
    Permutation (concat (map p_pool ps)) (concat bs) /\ Forall (item_id parts) (concat (map p_pool ps)) /\
    out = map Some (concat (blocks (map p_block ps) bs))).
  { unfold step5 in H. destruct (concat (map p_pool ps)) as [|x0 l0] eqn:Ep.
    - injection H as <- _. exists []. pose proof (pools_nil _ _ _ _ _ Hps Ep) as E0.
      repeat split; auto using no_slots.
    - rewrite <- Ep in *. clear Ep x0 l0.
      destruct (random_shuffle _ rs2) as [l1 rs3] eqn:E5. apply random_shuffle_perm in E5.
      unfold bind in H.
      destruct (fill_buckets (skel (map p_block ps)) l1) as [[bs rest]|] eqn:E6; [|discriminate].
      apply fill_spec in E6 as (F1 & F2 & F3).
      destruct (spread bs rest rs3) as [[bs1 rs4]|] eqn:E7; [|discriminate].
      apply spread_spec in E7 as (G1 & G2 & G3); [|exact F3].
      destruct (splice_all parts bs1 (skel (map p_block ps))) as [o|] eqn:E8; [|discriminate].
      injection H as <- _. apply splice_all_spec in E8 as [-> K]; [|congruence].
      exists bs1. rewrite F2 in G1.
      assert (P : Permutation (concat (map p_pool ps)) (concat bs1)) by (rewrite G1; exact E5).
      split; [congruence|]. split; [exact G3|]. split; [exact P|]. split; [|reflexivity].
      rewrite P. clear -K. induction K; cbn; [constructor|]. apply Forall_app. auto. }
  destruct Hmain as (bs & B1 & B2 & B3 & B4 & ->).
  destruct (rows_ok _ _ _ _ _ Hps bs B1 B2 B4) as [R1 R2].
  eexists. split; [reflexivity|]. split.
  - exists (rows_of ps bs). rewrite rows_child, rows_pool, rows_block, R2. auto.
  - intros Ht. pose proof (s_size _ _ _ Ec) as Hz. rewrite <- (rows_child ps bs), map_length in Hz.
    rewrite <- rows_block. destruct (rows_of ps bs) as [|r rows]; [cbn in Hz; lia|].
    inversion R1; subst. cbn. intros E. apply app_eq_nil in E as [E _].
    destruct H2 as (c & S & _ & _ & Hr). destruct (in_place shuffle c).
    + destruct Hr as [Hr _]. unfold block_ok in Hr.
      destruct (is_section c && expand); [destruct Hr as (? & _ & Hr)|]; rewrite E in Hr; discriminate.
    + destruct Hr as [_ Hr]. contradiction.
Qed.

(** ** Select *)
Lemma Select_eq id r f v k sel sh cs :
  Select parts (Sect id r f v k sel sh cs) = select_body parts sel sh cs (map (Select parts) cs).
Proof. reflexivity. Qed.
Lemma form_eq id r f v k sel sh cs :
  form parts (Sect id r f v k sel sh cs) = form_body parts sel sh cs (map (form parts) cs).
Proof. reflexivity. Qed.

Lemma subparts_child id r f v k sel sh cs c :
  In c cs -> forall q, In q (subparts c) -> In q (subparts (Sect id r f v k sel sh cs)).
Proof. intros H q Hq. cbn. right. apply in_flat_map. eauto. Qed.

Lemma subparts_self p : In p (subparts p).
Proof. destruct p; left; reflexivity. Qed.

Lemma Select_form p : populated p -> sub_ok p (Select parts p) (form parts p).
Proof.
  induction p as [id r f|id r f v k sel sh cs IH] using part_ind'; intros Hpop.
  - intros e rs out rs' H. discriminate.
  - intros e rs out rs' H. rewrite Select_eq in H.
    apply (select_body_form _ _ _ _ (map (form parts) cs)) in H.
    + destruct H as (l & -> & H1 & H2). exists l. rewrite form_eq. split; [reflexivity|].
      split; [exact H1|]. intros Hs. apply H2.
      exact (Hpop _ (subparts_self _) Hs).
    + split; [apply map_length|]. split; [apply map_length|].
      intros i c g S Hc Hg HS. rewrite (map_nth_error _ _ _ Hc) in Hg. rewrite (map_nth_error _ _ _ Hc) in HS.
      injection Hg as <-. injection HS as <-. rewrite Forall_nth in IH. apply (IH i c Hc).
      intros q Hq. apply Hpop. eapply subparts_child; [eapply nth_error_In, Hc|exact Hq].
Qed.

(** ** Nesting *)
Lemma nested_app group l l' : nested (item_id parts) group l -> nested (item_id parts) group l' -> nested (item_id parts) group (l ++ l').
Proof.
  induction 1 as [|id l Hi H IH|id l l1 Hg H1 IH1 H2 IH2]; intros H'; [exact H'| |].
  - cbn. constructor; auto.
  - cbn. rewrite <- app_assoc. cbn. apply nested_group; auto.
Qed.
Lemma nested_items group l : Forall (item_id parts) l -> nested (item_id parts) group l.
Proof. induction 1; constructor; auto. Qed.

Lemma form_nested (group : str -> Prop) p :
  (forall q, In q (subparts p) -> if is_section q then group (ident q) else item_id parts (ident q)) ->
  forall l, form parts p true l -> nested (item_id parts) group l.
Proof.
  induction p as [id r f|id r f v k sel sh cs IH] using part_ind'; intros Hg l H; [destruct H|].
  rewrite form_eq in H. destruct H as (rows & _ & Hr & -> & HP).
  assert (Hpool : Forall (item_id parts) (concat (map r_pool rows))).
  { clear HP. induction Hr as [|rw rows (c & S & _ & _ & Hx) Hr IHr]; [constructor|]. cbn. apply Forall_app.
    split; [|exact IHr]. destruct (in_place sh c).
    - destruct Hx as [_ ->]. constructor.
    - apply Hx. }
  rewrite HP in Hpool. clear HP.
  induction Hr as [|rw rows (c & S & Ec & ES & Hx) Hr IHr]; [constructor|].
  cbn [map concat]. cbn [filter] in Hpool. unfold moves at 1 in Hpool. rewrite Ec in Hpool.
  assert (Hin : In c cs) by (eapply nth_error_In, Ec).
  rewrite (map_nth_error _ _ _ Ec) in ES. injection ES as <-.
  destruct (in_place sh c) eqn:Ei; cbn [negb] in Hpool.
  - apply nested_app; [|apply IHr, Hpool]. destruct Hx as [Hb _]. unfold block_ok in Hb.
    rewrite andb_true_r in Hb.
    pose proof (Hg c (subparts_child _ _ _ _ _ _ _ _ _ Hin _ (subparts_self c))) as Hc.
    destruct (is_section c).
    + destruct Hb as (l & Hl & ->). apply (nested_group _ _ _ _ []); [exact Hc| |constructor].
      rewrite Forall_forall in IH. apply (IH c Hin); [|exact Hl].
      intros q Hq. apply Hg. eapply subparts_child; eauto.
    + rewrite Hb. apply nested_item; [exact Hc|constructor].
  - cbn [map concat] in Hpool. apply Forall_app in Hpool as [Hp1 Hp2].
    apply nested_app; [apply nested_items, Hp1|apply IHr, Hp2].
Qed.

End Proofs.
