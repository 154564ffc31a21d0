(** Lemmas for C129-C131: what the WriteXML methods write is markup for the document. *)
From Coq Require Import Permutation Sorted.
From Verif Require Import Py Iso Dec XmlUtils XmlSpec XmlProofs XmlProofs2 MigWrite MigWriteSpec.

Definition ascii (w : str) : Prop := Forall (fun c => 0 <= c < 128) w.

Lemma ascii_app a b : ascii a -> ascii b -> ascii (a ++ b).
Proof. intros. apply Forall_app; split; assumption. Qed.
Lemma ascii_cons c w : 0 <= c < 128 -> ascii w -> ascii (c :: w).
Proof. intros. constructor; assumption. Qed.
Lemma ascii_nil : ascii []. Proof. constructor. Qed.
Lemma lit_ascii_b (w : str) : forallb (fun c => (0 <=? c) && (c <? 128)) w = true -> ascii w.
Proof. intros H. apply Forall_forall. intros c Hc. rewrite forallb_forall in H. specialize (H c Hc). lia. Qed.

(** *** Characters *)
Lemma text_ok_is_text s : text_ok s -> is_text s.
Proof.
  intros H. eapply Forall_impl; [|exact H]. intros c (Hc & _ & _). unfold xml_Char in Hc. lia.
Qed.
Lemma text_ok_chars s : text_ok s -> Forall xml_Char s.
Proof. intros H. eapply Forall_impl; [|exact H]. intros c Hc. apply Hc. Qed.
Lemma fmt_ascii n : 0 <= n -> ascii (fmt n).
Proof. intros H. eapply Forall_impl; [|exact (fmt_digits n H)]. unfold is_dec. lia. Qed.
Lemma pystr_ascii n : ascii (pystr n).
Proof.
  unfold pystr. destruct (n <? 0) eqn:E; [apply ascii_cons; [lia|]|]; apply fmt_ascii; lia.
Qed.
Lemma xml_char_ascii c : 0 <= c -> c <> 128 -> ascii (xml_char c).
Proof.
  intros H0 H. unfold xml_char.
  repeat match goal with |- context [if ?b then _ else _] => destruct b eqn:? end;
    try (apply lit_ascii_b; reflexivity).
  - repeat apply ascii_app; try (apply lit_ascii_b; reflexivity). apply fmt_ascii. lia.
  - apply ascii_cons; [lia|apply ascii_nil].
Qed.
Lemma XMLString_ascii s : text_ok s -> ascii (XMLString s).
Proof.
  induction 1 as [|c s (Hc & _ & H8) _ IH]; [apply ascii_nil|]. cbn [XMLString].
  apply ascii_app; [|exact IH]. apply xml_char_ascii; [unfold xml_Char in Hc; lia|exact H8].
Qed.
Lemma XMLString_no_gt s : text_ok s -> ~ In 62 (XMLString s).
Proof.
  intros H Hi. pose proof (XMLString_clean s (text_ok_is_text s H)) as C.
  rewrite Forall_forall in C. specialize (C _ Hi). lia.
Qed.
Lemma plain_reads s : plain s -> reads s s.
Proof. induction 1 as [|c s Hc _ IH]; [constructor|]. constructor; try lia. exact IH. Qed.
Lemma plain_ascii s : plain s -> ascii s.
Proof. intros H. eapply Forall_impl; [|exact H]. cbv beta. lia. Qed.
Lemma plain_text s : plain s -> is_text s.
Proof. intros H. eapply Forall_impl; [|exact H]. cbv beta. lia. Qed.
Lemma plain_no_quote s : plain s -> ~ In 34 s.
Proof. intros H Hi. unfold plain in H. rewrite Forall_forall in H. specialize (H _ Hi). cbv beta in H. lia. Qed.
Lemma fmt_plain n : 0 <= n -> plain (fmt n).
Proof. intros H. eapply Forall_impl; [|exact (fmt_digits n H)]. unfold is_dec. cbv beta. lia. Qed.
Lemma pystr_plain n : plain (pystr n).
Proof.
  unfold pystr. destruct (n <? 0) eqn:E; [constructor; [lia|]|]; apply fmt_plain; lia.
Qed.
Lemma truth_plain b : plain (truth b).
Proof. destruct b; repeat (constructor; [vm_compute; intuition discriminate|]); constructor. Qed.
Lemma bool_str_truth b : bool_str b = truth b. Proof. destruct b; reflexivity. Qed.
Lemma plain_app a b : plain a -> plain b -> plain (a ++ b).
Proof. intros. apply Forall_app; split; assumption. Qed.
Lemma separated_plain sep l : plain [sep] -> Forall plain l -> plain (separated sep l).
Proof.
  intros Hs. induction 1 as [|x l Hx Hl IH]; [constructor|]. cbn [separated].
  apply plain_app; [exact Hx|]. destruct l; [constructor|]. inversion Hs; subst. constructor; assumption.
Qed.
Lemma join_separated sep l : join [sep] l = separated sep l.
Proof.
  induction l as [|x l IH]; [reflexivity|]. destruct l as [|y l].
  - cbn. rewrite app_nil_r. reflexivity.
  - change (join [sep] (x :: y :: l)) with (x ++ [sep] ++ join [sep] (y :: l)). rewrite IH. reflexivity.
Qed.

(** *** Names *)
Definition name_b (s : str) : bool :=
  match s with
  | [] => false
  | a :: r => nmstart_char a && forallb nmtoken_char r && forallb (fun c => (0 <=? c) && (c <? 128)) s
  end.
Lemma name_b_ok s : name_b s = true -> ascii_name s.
Proof.
  destruct s as [|a r]; [discriminate|]. unfold name_b. intros H.
  apply andb_true_iff in H as [H Ha]. apply andb_true_iff in H as [H1 H2]. split.
  - split; [apply name_start_iff; rewrite H1; reflexivity|]. apply Forall_forall. intros c Hc.
    rewrite forallb_forall in H2. apply name_char_iff. rewrite (H2 c Hc). reflexivity.
  - apply lit_ascii_b in Ha. eapply Forall_impl; [|exact Ha]. cbv beta. lia.
Qed.
Lemma ascii_name_ascii s : ascii_name s -> ascii s.
Proof.
  intros [Hn Ha]. destruct s as [|a r]; [apply ascii_nil|]. destruct Hn as [H1 H2].
  inversion Ha; subst. constructor.
  - unfold name_start, letter in H1. lia.
  - apply Forall_forall. intros c Hc. rewrite Forall_forall in H2, H4. specialize (H2 c Hc). specialize (H4 c Hc).
    unfold name_char, letter, is_dec in H2. cbv beta in H4. split; [|lia].
    destruct H2 as [H2|[H2|[H2|H2]]]; try lia. vm_compute in H2. intuition lia.
Qed.

(** *** Attributes *)
Definition atts_as (l : list (str * str)) (m : str) : Prop :=
  (forall l' m', attributes l' m' -> attributes (l ++ l') (m ++ m')) /\ ascii m.
Lemma atts_nil : atts_as [] []. Proof. split; [intros; assumption|apply ascii_nil]. Qed.
Lemma atts_app l1 m1 l2 m2 : atts_as l1 m1 -> atts_as l2 m2 -> atts_as (l1 ++ l2) (m1 ++ m2).
Proof.
  intros [H1 A1] [H2 A2]. split; [|apply ascii_app; assumption].
  intros l' m' H. rewrite <- !app_assoc. apply H1, H2, H.
Qed.
Lemma atts_end l m : atts_as l m -> attributes l m.
Proof.
  intros [H _]. specialize (H [] []). rewrite !app_nil_r in H. apply H. apply (at_nil []). constructor.
Qed.
Lemma space32 : Forall space [32]. Proof. constructor; [left; reflexivity|constructor]. Qed.
Lemma atts_lead k v w sp : Forall space sp -> sp <> [] -> ascii sp -> ascii_name (lit k) ->
  reads w v -> is_text v -> ~ In 34 w -> ascii w ->
  atts_as [(lit k, v)] (sp ++ lit k ++ 61 :: 34 :: w ++ [34]).
Proof.
  intros Hsp Hne Hsa Hk Hr Ht Hq Ha. split.
  - intros l' m' H. cbn [app].
    replace ((sp ++ lit k ++ 61 :: 34 :: w ++ [34]) ++ m')
      with (sp ++ lit k ++ [] ++ 61 :: [] ++ 34 :: w ++ 34 :: m')
      by (repeat (rewrite <- app_assoc; cbn [app]); reflexivity).
    apply at_cons; try assumption; try (constructor; fail); try (left; reflexivity). apply Hk.
  - apply ascii_app; [exact Hsa|]. apply ascii_app; [apply ascii_name_ascii, Hk|].
    apply ascii_cons; [lia|]. apply ascii_cons; [lia|]. apply ascii_app; [exact Ha|].
    apply ascii_cons; [lia|apply ascii_nil].
Qed.
Lemma atts_put k v w : name_b (lit k) = true -> reads w v -> is_text v -> ~ In 34 w -> ascii w ->
  atts_as (att k v) (put k w).
Proof.
  intros Hk Hr Ht Hq Ha. apply (atts_lead k v w [32]); try assumption; try discriminate.
  - exact space32.
  - apply lit_ascii_b. reflexivity.
  - apply name_b_ok, Hk.
Qed.
Lemma att_ok_quote v : att_ok v -> ~ In 34 v.
Proof.
  intros [_ H] Hi. rewrite Forall_forall in H. specialize (H _ Hi). cbv beta in H. tauto.
Qed.
Lemma atts_esc k v : name_b (lit k) = true -> att_ok v -> atts_as (att k v) (put k (XMLString v)).
Proof.
  intros Hk Hv. pose proof (text_ok_is_text v (proj1 Hv)) as Ht.
  apply atts_put; [exact Hk|apply XMLString_reads, Ht|exact Ht| |apply XMLString_ascii, Hv].
  apply XMLString_no_quote; [exact Ht|]. apply att_ok_quote, Hv.
Qed.
Lemma atts_plain k v : name_b (lit k) = true -> plain v -> atts_as (att k v) (put k v).
Proof.
  intros Hk Hv. apply atts_put; [exact Hk|apply plain_reads, Hv|apply plain_text, Hv|apply plain_no_quote, Hv|
    apply plain_ascii, Hv].
Qed.
Lemma atts_opt k o : name_b (lit k) = true -> Forall (fun kv => att_ok (snd kv)) (att_opt k o) ->
  atts_as (att_opt k o) (put_opt k o).
Proof.
  intros Hk Ho. destruct o as [[|c s]|]; try exact atts_nil. cbn [att_opt put_opt] in *.
  inversion Ho; subst. apply atts_esc; assumption.
Qed.
Lemma atts_str k o : name_b (lit k) = true -> if_set plain o -> atts_as (att_opt k o) (put_str k o).
Proof.
  intros Hk Ho. destruct o as [[|c s]|]; try exact atts_nil. apply atts_plain; assumption.
Qed.
Lemma atts_num k o : name_b (lit k) = true -> number_ok o -> atts_as (att_num k o) (put_num k o).
Proof.
  intros Hk Ho. destruct o as [n|]; [|exact atts_nil]. cbn [att_num put_num].
  destruct (n =? 0) eqn:E; [apply Z.eqb_eq in E; subst; destruct (Ho eq_refl)|].
  apply atts_plain; [exact Hk|apply pystr_plain].
Qed.
Lemma atts_bool k o : name_b (lit k) = true -> atts_as (att_bool k o) (put_bool k o).
Proof.
  intros Hk. destruct o as [b|]; [|exact atts_nil]. apply (atts_plain k (truth b)); [exact Hk|apply truth_plain].
Qed.

(** Names of attributes *)
Inductive subseq : list str -> list str -> Prop :=
| ss_nil l : subseq [] l
| ss_keep x s l : subseq s l -> subseq (x :: s) (x :: l)
| ss_skip x s l : subseq s l -> subseq s (x :: l).
Lemma subseq_app s1 l1 s2 l2 : subseq s1 l1 -> subseq s2 l2 -> subseq (s1 ++ s2) (l1 ++ l2).
Proof.
  induction 1 as [l|x s l _ IH|x s l _ IH]; intros H; cbn [app].
  - induction l as [|y l IHl]; [exact H|]. apply ss_skip, IHl.
  - apply ss_keep, IH, H.
  - apply ss_skip, IH, H.
Qed.
Lemma subseq_In s l x : subseq s l -> In x s -> In x l.
Proof. induction 1; intros Hi; cbn [In] in *; [destruct Hi|destruct Hi; auto|auto]. Qed.
Lemma subseq_NoDup s l : subseq s l -> NoDup l -> NoDup s.
Proof.
  induction 1 as [l|x s l H IH|x s l H IH]; intros Hn; [constructor| |]; inversion Hn; subst.
  - constructor; [|auto]. intros Hi. eapply subseq_In in Hi; [|exact H]. contradiction.
  - auto.
Qed.
Definition keys (ks : list string) (l : list (str * str)) : Prop := subseq (map fst l) (map lit ks).
Lemma keys_nil : keys [] []. Proof. constructor. Qed.
Lemma keys_app k1 l1 k2 l2 : keys k1 l1 -> keys k2 l2 -> keys (k1 ++ k2) (l1 ++ l2).
Proof. unfold keys. rewrite !map_app. apply subseq_app. Qed.
Lemma keys_att k v : keys [k] (att k v). Proof. apply ss_keep, ss_nil. Qed.
Lemma keys_opt k o : keys [k] (att_opt k o). Proof. destruct o as [[|c s]|]; cbv [keys map fst att_opt]; auto using ss_nil, ss_keep. Qed.
Lemma keys_num k o : keys [k] (att_num k o). Proof. destruct o; cbv [keys map fst att_num]; auto using ss_nil, ss_keep. Qed.
Lemma keys_bool k o : keys [k] (att_bool k o). Proof. destruct o; cbv [keys map fst att_bool]; auto using ss_nil, ss_keep. Qed.
Lemma keys_body b : keys ["id"; "class"; "xml:lang"; "label"]%string (body_atts b).
Proof.
  unfold body_atts. do 3 refine (keys_app [_] _ _ _ (keys_opt _ _) _). apply keys_opt.
Qed.
Lemma keys_response r : keys ["responseIdentifier"]%string (response_atts r).
Proof. destruct r; repeat constructor. Qed.
Lemma keys_string s : keys ["stringIdentifier"; "base"; "expectedLength"]%string (string_atts s).
Proof.
  unfold string_atts. refine (keys_app [_] _ _ _ (keys_opt _ _) _).
  refine (keys_app [_] _ _ _ (keys_num _ _) _). apply keys_num.
Qed.
Fixpoint distinct_b (l : list str) : bool :=
  match l with [] => true | x :: l' => negb (existsb (str_eqb x) l') && distinct_b l' end.
Lemma distinct_ok l : distinct_b l = true -> NoDup l.
Proof.
  induction l as [|x l IH]; intros H; [constructor|]. cbn [distinct_b] in H. apply andb_true_iff in H as [H1 H2].
  constructor; [|auto]. intros Hi. apply negb_true_iff in H1.
  assert (existsb (str_eqb x) l = true); [|congruence]. apply existsb_exists. exists x. split; [exact Hi|apply str_eqb_refl].
Qed.
Lemma keys_distinct ks l : keys ks l -> distinct_b (map lit ks) = true -> NoDup (map fst l).
Proof. intros H Hd. eapply subseq_NoDup; [exact H|apply distinct_ok, Hd]. Qed.

Lemma body_written b : Forall (fun kv => att_ok (snd kv)) (body_atts b) -> atts_as (body_atts b) (body_attributes b).
Proof.
  unfold body_atts, body_attributes. rewrite !Forall_app. intros (H1 & H2 & H3 & H4).
  repeat apply atts_app; apply atts_opt; solve [reflexivity|assumption].
Qed.
Lemma response_written r : bound r ->
  exists m, interaction_attributes r = Ok m /\ atts_as (response_atts r) m.
Proof.
  intros (s & -> & Hs). eexists. split; [reflexivity|]. apply atts_plain; [reflexivity|exact Hs].
Qed.
Lemma string_written s : strings_ok s -> atts_as (string_atts s) (string_attributes s).
Proof.
  intros (H1 & H2 & H3). unfold string_atts, string_attributes. repeat apply atts_app;
    [apply atts_str|apply atts_num|apply atts_num]; solve [reflexivity|assumption].
Qed.
Lemma size_written w h : size_ok w h ->
  atts_as (att_opt "width" w ++ att_opt "height" h)
    (put_str "width" w ++
     match w with
     | Some (_ :: _) => put "height" (match h with Some h => h | None => lit "None" end)
     | _ => []
     end).
Proof.
  intros (Hn & Hw & Hh). destruct w as [[|c w]|], h as [[|d h]|]; try discriminate Hn; try exact atts_nil.
  apply atts_app; apply atts_plain; solve [reflexivity|assumption].
Qed.

(** *** Markup *)
Definition marked (l : list xml) (w : str) : Prop := markup l w /\ ascii w.
Lemma marked_nil : marked [] []. Proof. split; [constructor|apply ascii_nil]. Qed.
Lemma markup_app l1 w1 l2 w2 : markup l1 w1 -> markup l2 w2 -> markup (l1 ++ l2) (w1 ++ w2).
Proof.
  induction 1 as [|c l w Hc H IH|s l m w Hs Hr Hg H IH|n a c l m u1 u2 Hn Ha Hm Hc IHc Hl IHl|n a l m u2 Hn Ha Hm Hl IHl];
    intros H2; cbn [app].
  - exact H2.
  - apply mu_space; [exact Hc|apply IH, H2].
  - rewrite <- app_assoc. apply mu_chars; auto.
  - replace ((n ++ m ++ 62 :: u1 ++ 60 :: 47 :: n ++ 62 :: u2) ++ w2)
      with (n ++ m ++ 62 :: u1 ++ 60 :: 47 :: n ++ 62 :: (u2 ++ w2))
      by (repeat (rewrite <- app_assoc; cbn [app]); reflexivity).
    apply mu_elem; auto.
  - replace ((n ++ m ++ 47 :: 62 :: u2) ++ w2) with (n ++ m ++ 47 :: 62 :: (u2 ++ w2))
      by (repeat (rewrite <- app_assoc; cbn [app]); reflexivity).
    apply mu_empty; auto.
Qed.
Lemma marked_app l1 w1 l2 w2 : marked l1 w1 -> marked l2 w2 -> marked (l1 ++ l2) (w1 ++ w2).
Proof. intros [H1 A1] [H2 A2]. split; [apply markup_app; assumption|apply ascii_app; assumption]. Qed.
Lemma marked_nl l w : marked l w -> marked l (NL ++ w).
Proof.
  intros [H A]. split; [apply mu_space; [right; right; right; reflexivity|exact H]|apply ascii_cons; [lia|exact A]].
Qed.
Lemma marked_end l w : marked l w -> marked l (w ++ NL).
Proof.
  intros H. rewrite <- (app_nil_r l). apply marked_app; [exact H|]. apply (marked_nl [] []), marked_nil.
Qed.
Lemma marked_chars s : text_ok s -> marked [Chars s] (XMLString s).
Proof.
  intros H. split; [|apply XMLString_ascii, H]. rewrite <- (app_nil_r (XMLString s)).
  apply mu_chars; [apply text_ok_chars, H|apply XMLString_reads, text_ok_is_text, H|apply XMLString_no_gt, H|constructor].
Qed.
Lemma marked_elem n a c m w ks : ascii_name n -> keys ks a -> distinct_b (map lit ks) = true ->
  atts_as a m -> marked c w -> marked [Elem n a c] (open_tag n m ++ w ++ close_tag n).
Proof.
  intros Hn Hk Hd Ha [Hw Aw]. split.
  - unfold open_tag, close_tag.
    replace ((60 :: n ++ m ++ [62]) ++ w ++ 60 :: 47 :: n ++ [62])
      with (60 :: n ++ m ++ 62 :: w ++ 60 :: 47 :: n ++ 62 :: [])
      by (repeat (cbn [app]; rewrite <- app_assoc); cbn [app]; reflexivity).
    apply mu_elem; [apply Hn|eapply keys_distinct; eassumption|apply atts_end, Ha|exact Hw|constructor].
  - pose proof (ascii_name_ascii n Hn). destruct Ha as [_ Am]. unfold open_tag, close_tag.
    repeat first [apply ascii_app|apply ascii_cons; [lia|]|assumption|apply ascii_nil].
Qed.
Lemma marked_empty n a m ks : ascii_name n -> keys ks a -> distinct_b (map lit ks) = true ->
  atts_as a m -> marked [Elem n a []] (empty_tag n m).
Proof.
  intros Hn Hk Hd Ha. split.
  - apply mu_empty; [apply Hn|eapply keys_distinct; eassumption|apply atts_end, Ha|constructor].
  - pose proof (ascii_name_ascii n Hn). destruct Ha as [_ Am]. unfold empty_tag.
    repeat first [apply ascii_app|apply ascii_cons; [lia|]|assumption|apply ascii_nil].
Qed.

(** *** Induction over the objects *)
Section Ind.
  Variable P : elem -> Prop.
  Definition Popt (p : option (list elem)) := match p with Some l => Forall P l | None => True end.
  Definition Pone (p : option elem) := match p with Some x => P x | None => True end.
  Hypothesis H_text : forall t, P (XText t).
  Hypothesis H_br : P XBr.
  Hypothesis H_img : forall s a l w h, P (XImg s a l w h).
  Hypothesis H_object : forall d t w h, P (XObject d t w h).
  Hypothesis H_node : forall c b es, Forall P es -> P (Node c b es).
  Hypothesis H_table : forall b s es, Forall P es -> P (XTable b s es).
  Hypothesis H_rubric : forall b v es, Forall P es -> P (RubricBlock b v es).
  Hypothesis H_choice : forall r b s m p cs, Popt p -> Forall P cs -> P (ChoiceInteraction r b s m p cs).
  Hypothesis H_order : forall r b s p cs, Popt p -> Forall P cs -> P (OrderInteraction r b s p cs).
  Hypothesis H_assoc : forall r b s m p cs, Popt p -> Forall P cs -> P (AssociateInteraction r b s m p cs).
  Hypothesis H_simple : forall b i f es, Forall P es -> P (SimpleChoice b i f es).
  Hypothesis H_sassoc : forall i f m g es, Forall P es -> P (SimpleAssociableChoice i f m g es).
  Hypothesis H_hotspot : forall i f s c l, P (HotspotChoice i f s c l).
  Hypothesis H_ext : forall r b s m p, Popt p -> P (ExtendedTextInteraction r b s m p).
  Hypothesis H_entry : forall r b s, P (TextEntryInteraction r b s).
  Hypothesis H_hi : forall r b m p g cs, Popt p -> Pone g -> Forall P cs -> P (HotspotInteraction r b m p g cs).
  Hypothesis H_sp : forall r b m p g, Popt p -> Pone g -> P (SelectPointInteraction r b m p g).
  Hypothesis H_go : forall r b p g cs, Popt p -> Pone g -> Forall P cs -> P (GraphicOrderInteraction r b p g cs).
  Hypothesis H_slider : forall r b l u s sl o rv p, Popt p -> P (SliderInteraction r b l u s sl o rv p).
  Fixpoint elem_all (e : elem) : P e :=
    let fl := fix go (l : list elem) : Forall P l :=
      match l with [] => Forall_nil P | x :: l' => Forall_cons x (elem_all x) (go l') end in
    let fo := fun p : option (list elem) => match p return Popt p with Some l => fl l | None => I end in
    let f1 := fun p : option elem => match p return Pone p with Some x => elem_all x | None => I end in
    match e with
    | XText t => H_text t
    | XBr => H_br
    | XImg s a l w h => H_img s a l w h
    | XObject d t w h => H_object d t w h
    | Node c b es => H_node c b es (fl es)
    | XTable b s es => H_table b s es (fl es)
    | RubricBlock b v es => H_rubric b v es (fl es)
    | ChoiceInteraction r b s m p cs => H_choice r b s m p cs (fo p) (fl cs)
    | OrderInteraction r b s p cs => H_order r b s p cs (fo p) (fl cs)
    | AssociateInteraction r b s m p cs => H_assoc r b s m p cs (fo p) (fl cs)
    | SimpleChoice b i f es => H_simple b i f es (fl es)
    | SimpleAssociableChoice i f m g es => H_sassoc i f m g es (fl es)
    | HotspotChoice i f s c l => H_hotspot i f s c l
    | ExtendedTextInteraction r b s m p => H_ext r b s m p (fo p)
    | TextEntryInteraction r b s => H_entry r b s
    | HotspotInteraction r b m p g cs => H_hi r b m p g cs (fo p) (f1 g) (fl cs)
    | SelectPointInteraction r b m p g => H_sp r b m p g (fo p) (f1 g)
    | GraphicOrderInteraction r b p g cs => H_go r b p g cs (fo p) (f1 g) (fl cs)
    | SliderInteraction r b l u s sl o rv p => H_slider r b l u s sl o rv p (fo p)
    end.
End Ind.
