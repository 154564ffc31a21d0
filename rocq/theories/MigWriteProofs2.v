(** Lemmas for C129-C131: the objects of an item, its expressions and rules. *)
From Coq Require Import Permutation Sorted.
From Verif Require Import Py Iso Dec XmlUtils XmlSpec XmlProofs XmlProofs2 MigWrite MigWriteSpec MigWriteProofs.

Definition good (e : elem) : Prop :=
  expressible e -> clean (tree e) -> exists w, WriteXML e = Ok w /\ marked [tree e] w.
Definition allp {A} (P : A -> Prop) (l : list A) : Prop := fold_right (fun y Q => P y /\ Q) True l.
Lemma allp_Forall {A} (P : A -> Prop) l : allp P l <-> Forall P l.
Proof.
  induction l as [|x l IH]; cbn [allp fold_right]; [split; constructor|].
  change (P x /\ allp P l <-> Forall P (x :: l)). rewrite IH. split; [intros []; constructor; assumption|].
  intros H. inversion H; split; assumption.
Qed.
Lemma writes_marked {A} (w : A -> result str) (t : A -> xml) l :
  Forall (fun x => exists m, w x = Ok m /\ marked [t x] m) l ->
  exists m, writes w l = Ok m /\ marked (map t l) m.
Proof.
  induction 1 as [|x l (m & E & M) _ (m' & E' & M')]; [exists []; split; [reflexivity|exact marked_nil]|].
  exists (m ++ m'). split.
  - cbn [writes]. rewrite E. cbn [bind]. change (fix go l0 := match l0 with [] => Ok [] | x0 :: l' => a <- w x0;; b <- go l';; Ok (a ++ b) end) with (writes w). rewrite E'. reflexivity.
  - apply (marked_app [t x] m (map t l) m'); assumption.
Qed.
Lemma good_list es : Forall good es -> allp expressible es -> allp clean (map tree es) ->
  exists w, writes WriteXML es = Ok w /\ marked (map tree es) w.
Proof.
  rewrite !allp_Forall, Forall_map. intros H1 H2 H3. apply writes_marked. apply Forall_forall. intros x Hx.
  rewrite Forall_forall in H1, H2, H3. apply H1; auto.
Qed.

Definition prompt_trees (p : option (list elem)) : list xml :=
  match p with Some l => [Elem (lit "prompt") [] (map tree l)] | None => [] end.
Definition write_prompt (p : option (list elem)) : result str :=
  write_opt (fun p => c <- writes WriteXML p ;;
    Ok (NL ++ open_tag (lit "prompt") [] ++ c ++ close_tag (lit "prompt"))) p.
Lemma good_prompt p : Popt good p -> match p with Some l => allp expressible l | None => True end ->
  allp clean (prompt_trees p) -> exists w, write_prompt p = Ok w /\ marked (prompt_trees p) w.
Proof.
  destruct p as [l|]; cbn [Popt prompt_trees write_prompt write_opt]; intros H1 H2 H3.
  - destruct H3 as [(_ & _ & H3) _]. destruct (good_list l H1 H2 H3) as (w & E & M). rewrite E. cbn [bind].
    eexists. split; [reflexivity|]. apply marked_nl. eapply (marked_elem _ [] _ _ _ []);
      [apply name_b_ok; reflexivity|apply keys_nil|reflexivity|apply atts_nil|exact M].
  - exists []. split; [reflexivity|exact marked_nil].
Qed.
Definition graphic_trees (g : option elem) : list xml := match g with Some x => [tree x] | None => [] end.
Definition write_graphic (g : option elem) : result str :=
  match g with Some x => WriteXML x | None => Err AttributeError end.
Lemma good_graphic g : Pone good g -> match g with Some x => expressible x | None => False end ->
  allp clean (graphic_trees g) -> exists w, write_graphic g = Ok w /\ marked (graphic_trees g) w.
Proof.
  destruct g as [x|]; cbn [Pone graphic_trees write_graphic]; intros H1 H2 H3; [|destruct H2].
  apply H1; [exact H2|apply H3].
Qed.
Lemma allp_app {A} (P : A -> Prop) l1 l2 : allp P (l1 ++ l2) <-> allp P l1 /\ allp P l2.
Proof. rewrite !allp_Forall, Forall_app. reflexivity. Qed.

Ltac att_solve :=
  first [ assumption
        | exact atts_nil
        | apply body_written; assumption
        | apply string_written; assumption
        | apply size_written; assumption
        | apply atts_opt; [reflexivity|assumption]
        | apply atts_bool; reflexivity
        | apply atts_num; [reflexivity|assumption]
        | apply atts_esc; [reflexivity|assumption]
        | apply atts_plain; [reflexivity|first [apply truth_plain|apply pystr_plain|assumption]]
        | apply atts_app; att_solve ].
Ltac key_solve :=
  repeat first [ assumption | apply keys_body | apply keys_response | apply keys_string
               | apply keys_att | apply keys_opt | apply keys_num | apply keys_bool | apply keys_nil
               | eapply keys_app ].
Ltac one H := let K := fresh H in inversion H as [|? ? K _]; subst; cbn [snd] in K.

Ltac nm := apply name_b_ok; reflexivity.

Theorem WriteXML_good : forall e, good e.
Proof.
  apply elem_all; unfold good.
  - intros t _ H. cbn [WriteXML tree] in *. eexists; split; [reflexivity|]. apply marked_chars, H.
  - intros _ _. eexists. split; [reflexivity|]. apply marked_end. eapply (marked_empty (lit "br") [] [] []);
      [nm|apply keys_nil|reflexivity|apply atts_nil].
  - intros src alt ld w h [Hl Hs] (_ & Ha & _). cbn [WriteXML tree] in *.
    replace (att_opt "longdesc" ld) with (@nil (str * str)) in * by (destruct ld as [[|]|]; [reflexivity|discriminate Hl|reflexivity]).
    cbn [app] in *. rewrite !Forall_app in Ha. destruct Ha as (H1 & H2 & H3 & H4). one H2.
    eexists. split; [reflexivity|]. eapply marked_empty; [nm|key_solve|reflexivity|].
    apply atts_app; [att_solve|]. apply atts_app; [att_solve|]. apply size_written, Hs.
  - intros d t w h Hs (_ & Ha & _). cbn [WriteXML tree] in *.
    rewrite !Forall_app in Ha. destruct Ha as (H1 & H2 & H3 & H4).
    eexists. split; [reflexivity|]. eapply marked_empty; [nm|key_solve|reflexivity|].
    apply atts_app; [att_solve|]. apply atts_app; [att_solve|]. apply size_written, Hs.
  - intros c b es IH He (Hn & Ha & Hc). cbn [WriteXML tree expressible] in *.
    destruct (good_list es IH He Hc) as (w & E & M). rewrite E. cbn [bind]. eexists. split; [reflexivity|].
    apply marked_nl. replace (node_name c) with (class_name c) by (destruct c; reflexivity).
    eapply marked_elem; [exact Hn|key_solve|reflexivity|att_solve|exact M].
  - intros b s es IH He (Hn & Ha & Hc). cbn [WriteXML tree expressible] in *. rewrite Forall_app in Ha. destruct Ha as (H1 & H2).
    destruct (good_list es IH He Hc) as (w & E & M). rewrite E. cbn [bind]. eexists. split; [reflexivity|].
    apply marked_nl. eapply marked_elem; [nm|key_solve|reflexivity|att_solve|exact M].
  - intros b v es IH (Hv & He) (Hn & Ha & Hc). cbn [WriteXML tree expressible] in *. rewrite Forall_app in Ha. destruct Ha as (H1 & H2).
    destruct (good_list es IH He Hc) as (w & E & M). rewrite E. cbn [bind]. eexists. split; [reflexivity|].
    apply marked_nl. rewrite (app_assoc w NL).
    assert (Hp : plain (match v with [] => lit "all" | _ => separated 32 v end)).
    { destruct v; [repeat (constructor; [vm_compute; intuition discriminate|]); constructor|].
      apply separated_plain; [repeat constructor; lia|exact Hv]. }
    replace (join (lit " ") (match v with [] => [lit "all"] | _ => v end))
      with (match v with [] => lit "all" | _ => separated 32 v end)
      by (destruct v as [|x v]; [reflexivity|change (lit " ") with [32]; rewrite join_separated; reflexivity]).
    eapply marked_elem; [nm|key_solve|reflexivity| |apply marked_end; exact M].
    apply atts_app; [att_solve|]. apply atts_plain; [reflexivity|exact Hp].
  - intros r b s m p cs IHp IH (Hr & Hp & He) (Hn & Ha & Hc). cbn [WriteXML tree expressible] in *.
    rewrite !Forall_app in Ha. destruct Ha as (H1 & H2 & H3 & H4). apply allp_app in Hc as [Hc1 Hc].
    destruct (response_written r Hr) as (m0 & E0 & M0). rewrite E0. cbn [bind].
    destruct (good_prompt p IHp Hp Hc1) as (m1 & E1 & M1). unfold write_prompt in E1. rewrite E1. cbn [bind].
    destruct (good_list cs IH He Hc) as (w & E & M). rewrite E. cbn [bind]. eexists. split; [reflexivity|].
    apply marked_nl. rewrite (app_assoc w NL), (app_assoc m1).
    eapply marked_elem; [nm|key_solve|reflexivity|att_solve|].
    apply marked_app; [exact M1|apply marked_end, M].
  - intros r b s p cs IHp IH (Hr & Hp & He) (Hn & Ha & Hc). cbn [WriteXML tree expressible] in *.
    rewrite !Forall_app in Ha. destruct Ha as (H1 & H2 & H3). apply allp_app in Hc as [Hc1 Hc].
    destruct (response_written r Hr) as (m0 & E0 & M0). rewrite E0. cbn [bind].
    destruct (good_prompt p IHp Hp Hc1) as (m1 & E1 & M1). unfold write_prompt in E1. rewrite E1. cbn [bind].
    destruct (good_list cs IH He Hc) as (w & E & M). rewrite E. cbn [bind]. eexists. split; [reflexivity|].
    apply marked_nl. rewrite (app_assoc w NL), (app_assoc m1).
    eapply marked_elem; [nm|key_solve|reflexivity|att_solve|].
    apply marked_app; [exact M1|apply marked_end, M].
  - intros r b s m p cs IHp IH (Hr & Hp & He) (Hn & Ha & Hc). cbn [WriteXML tree expressible] in *.
    rewrite !Forall_app in Ha. destruct Ha as (H1 & H2 & H3 & H4). apply allp_app in Hc as [Hc1 Hc].
    destruct (response_written r Hr) as (m0 & E0 & M0). rewrite E0. cbn [bind].
    destruct (good_prompt p IHp Hp Hc1) as (m1 & E1 & M1). unfold write_prompt in E1. rewrite E1. cbn [bind].
    destruct (good_list cs IH He Hc) as (w & E & M). rewrite E. cbn [bind]. eexists. split; [reflexivity|].
    apply marked_nl. rewrite (app_assoc w NL), (app_assoc m1).
    eapply marked_elem; [nm|key_solve|reflexivity|att_solve|].
    apply marked_app; [exact M1|apply marked_end, M].
  - intros b i f es IH He (Hn & Ha & Hc). cbn [WriteXML tree expressible] in *.
    rewrite !Forall_app in Ha. destruct Ha as (H1 & H2 & H3). one H2.
    destruct (good_list es IH He Hc) as (w & E & M). rewrite E. cbn [bind]. eexists. split; [reflexivity|].
    apply marked_nl. unfold choice_attributes. eapply marked_elem; [nm|key_solve|reflexivity|att_solve|exact M].
  - intros i f m g es IH (Hg & He) (Hn & Ha & Hc). cbn [WriteXML tree expressible] in *.
    rewrite !Forall_app in Ha. destruct Ha as (H1 & H2 & H3 & H4). one H1.
    destruct (good_list es IH He Hc) as (w & E & M). rewrite E. cbn [bind]. eexists. split; [reflexivity|].
    apply marked_nl. unfold associable_attributes, choice_attributes. rewrite <- app_assoc.
    assert (Hk : keys ["matchGroup"]%string (match g with [] => [] | _ => att "matchGroup" (separated 32 g) end))
      by (destruct g; [constructor|apply keys_att]).
    eapply marked_elem; [nm|do 3 (eapply keys_app; [key_solve|]); exact Hk|reflexivity| |exact M].
    + do 3 (apply atts_app; [att_solve|]). destruct g as [|x g]; [exact atts_nil|].
      change (lit " ") with [32]. rewrite join_separated. apply atts_plain; [reflexivity|].
      apply separated_plain; [repeat constructor; lia|exact Hg].
  - intros i f s c l _ (Hn & Ha & _). cbn [WriteXML tree] in *.
    rewrite !Forall_app in Ha. destruct Ha as (H1 & H2 & H3 & H4 & H5). one H1. one H3.
    eexists. split; [reflexivity|]. apply marked_nl. unfold choice_attributes, hotspot_attributes. rewrite <- !app_assoc.
    change (lit ",") with [44]. rewrite join_separated.
    assert (plain (separated 44 (map pystr c))).
    { apply separated_plain; [repeat constructor; lia|]. apply Forall_map, Forall_forall. intros. apply pystr_plain. }
    eapply marked_empty; [nm|key_solve|reflexivity|att_solve].
  - intros r b s m p IHp (Hr & Hs & Hm & Hp) (Hn & Ha & Hc). cbn [WriteXML tree expressible] in *.
    rewrite !Forall_app in Ha. destruct Ha as (H1 & H2 & H3 & H4).
    destruct (response_written r Hr) as (m0 & E0 & M0). rewrite E0. cbn [bind]. cbv zeta.
    destruct (good_prompt p IHp Hp Hc) as (m1 & E1 & M1). unfold write_prompt in E1. destruct p as [p|].
    + rewrite E1. cbn [bind]. eexists. split; [reflexivity|]. apply marked_nl.
      eapply marked_elem; [nm|key_solve|reflexivity|att_solve|exact M1].
    + eexists. split; [reflexivity|]. apply marked_nl. eapply marked_empty; [nm|key_solve|reflexivity|att_solve].
  - intros r b s (Hr & Hs) (Hn & Ha & Hc). cbn [WriteXML tree expressible] in *.
    rewrite !Forall_app in Ha. destruct Ha as (H1 & H2 & H3).
    destruct (response_written r Hr) as (m0 & E0 & M0). rewrite E0. cbn [bind].
    eexists. split; [reflexivity|]. apply marked_nl. eapply marked_empty; [nm|key_solve|reflexivity|att_solve].
  - intros r b m p g cs IHp IHg IH (Hr & Hm & Hp & Hg & He) (Hn & Ha & Hc). cbn [WriteXML tree expressible] in *.
    rewrite !Forall_app in Ha. destruct Ha as (H1 & H2 & H3). apply allp_app in Hc as [Hc1 Hc]. apply allp_app in Hc as [Hc2 Hc].
    destruct (response_written r Hr) as (m0 & E0 & M0). rewrite E0. cbn [bind].
    destruct (good_prompt p IHp Hp Hc1) as (m1 & E1 & M1). unfold write_prompt in E1. rewrite E1. cbn [bind].
    destruct (good_graphic g IHg Hg Hc2) as (m2 & E2 & M2). unfold write_graphic in E2. rewrite E2. cbn [bind].
    destruct (good_list cs IH He Hc) as (w & E & M). rewrite E. cbn [bind]. eexists. split; [reflexivity|].
    apply marked_nl. rewrite (app_assoc m2), (app_assoc m1).
    assert (number_ok (Some m)) by (intros Q; injection Q; exact Hm).
    eapply marked_elem; [nm|key_solve|reflexivity| |].
    + apply atts_app; [att_solve|]. apply atts_app; [att_solve|]. apply (atts_num "maxChoices" (Some m)); [reflexivity|assumption].
    + apply marked_app; [exact M1|apply marked_app; [exact M2|exact M]].
  - intros r b m p g IHp IHg (Hr & Hm & Hp & Hg) (Hn & Ha & Hc). cbn [WriteXML tree expressible] in *.
    rewrite !Forall_app in Ha. destruct Ha as (H1 & H2 & H3). apply allp_app in Hc as [Hc1 Hc2].
    destruct (response_written r Hr) as (m0 & E0 & M0). rewrite E0. cbn [bind].
    destruct (good_prompt p IHp Hp Hc1) as (m1 & E1 & M1). unfold write_prompt in E1. rewrite E1. cbn [bind].
    destruct (good_graphic g IHg Hg Hc2) as (m2 & E2 & M2). unfold write_graphic in E2. rewrite E2. cbn [bind].
    eexists. split; [reflexivity|].
    apply marked_nl. rewrite (app_assoc m1).
    assert (number_ok (Some m)) by (intros Q; injection Q; exact Hm).
    eapply marked_elem; [nm|key_solve|reflexivity| |].
    + apply atts_app; [att_solve|]. apply atts_app; [att_solve|]. apply (atts_num "maxChoices" (Some m)); [reflexivity|assumption].
    + apply marked_app; [exact M1|exact M2].
  - intros r b p g cs IHp IHg IH (Hr & -> & Hg & He) (Hn & Ha & Hc). cbn [WriteXML tree expressible] in *.
    rewrite !Forall_app in Ha. destruct Ha as (H1 & H2). apply allp_app in Hc as [_ Hc]. apply allp_app in Hc as [Hc2 Hc].
    destruct (response_written r Hr) as (m0 & E0 & M0). rewrite E0. cbn [bind].
    destruct (good_graphic g IHg Hg Hc2) as (m2 & E2 & M2). unfold write_graphic in E2. rewrite E2. cbn [bind].
    destruct (good_list cs IH He Hc) as (w & E & M). rewrite E. cbn [bind]. eexists. split; [reflexivity|].
    apply marked_nl. rewrite (app_assoc m2).
    eapply marked_elem; [nm|key_solve|reflexivity|att_solve|].
    apply (marked_app _ m2 _ w M2 M).
  - intros r b l u s sl o rv p IHp (Hr & Hl & Hu & Hs & Hp) (Hn & Ha & Hc). cbn [WriteXML tree expressible] in *.
    rewrite !Forall_app in Ha. destruct Ha as (H1 & H2 & H3 & H4 & H5 & H6 & H7 & H8).
    destruct (response_written r Hr) as (m0 & E0 & M0). rewrite E0. cbn [bind]. cbv zeta.
    assert (atts_as (match s with Some s => att "step" s | None => [] end) (match s with Some s => put "step" s | None => [] end)).
    { destruct s; [apply atts_plain; [reflexivity|exact Hs]|exact atts_nil]. }
    assert (Hk : keys ["step"]%string (match s with Some s => att "step" s | None => [] end)) by (destruct s; [apply keys_att|constructor]).
    destruct (good_prompt p IHp Hp Hc) as (m1 & E1 & M1). unfold write_prompt in E1. destruct p as [p|].
    + rewrite E1. cbn [bind]. eexists. split; [reflexivity|]. apply marked_nl.
      eapply marked_elem; [nm|do 4 (eapply keys_app; [key_solve|]); eapply keys_app; [exact Hk|key_solve]|reflexivity|att_solve|exact M1].
    + eexists. split; [reflexivity|]. apply marked_nl.
      eapply marked_empty; [nm|do 4 (eapply keys_app; [key_solve|]); eapply keys_app; [exact Hk|key_solve]|reflexivity|att_solve].
Qed.
