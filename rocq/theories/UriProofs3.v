(** Proofs about SplitServer and Relative. *)
From Verif Require Import Py Uri UriSpec UriProofs UriProofs2.
Ltac Zify.zify_convert_to_euclidean_division_equations_flag ::= constr:(true).

(** ** SplitServer *)
Lemma server_user ui : forall m pre host port t, ~ In 64 ui ->
  (m = SNone \/ (exists acc, m = SPort acc) \/ m = SUser) ->
  exists h pre', split_server_loop m pre (ui ++ 64 :: t) None host port =
    split_server_loop (SHost []) pre' t (Some (rev pre ++ ui)) h port.
Proof.
  induction ui as [|c ui IH]; intros m pre host port t Hn Hm.
  - rewrite app_nil_r. cbn [app]. destruct Hm as [->|[(acc & ->)| ->]]; cbn; eauto.
  - assert (Hc : c =? 64 = false)
      by (apply Z.eqb_neq; intros ->; apply Hn; left; reflexivity).
    assert (Hn' : ~ In 64 ui) by (intros Hi; apply Hn; right; exact Hi).
    assert (Hrev : rev pre ++ c :: ui = rev (c :: pre) ++ ui)
      by (cbn [rev]; rewrite <- app_assoc; reflexivity).
    rewrite Hrev. destruct Hm as [->|[(acc & ->)| ->]]; cbn [app split_server_loop]; rewrite Hc;
      cbn [andb].
    + destruct (c =? 58); apply IH; eauto.
    + destruct (IsDigit c); cbn [negb]; apply IH; eauto.
    + apply IH; eauto.
Qed.

Lemma server_host h : forall acc pre t u host port, ~ In 58 h ->
  exists pre', split_server_loop (SHost acc) pre (h ++ t) u host port =
    split_server_loop (SHost (rev h ++ acc)) pre' t u host port.
Proof.
  induction h as [|c h IH]; intros acc pre t u host port Hn.
  - cbn. eauto.
  - cbn [app split_server_loop].
    replace (c =? 58) with false
      by (symmetry; apply Z.eqb_neq; intros ->; apply Hn; left; reflexivity).
    destruct (IH (c :: acc) (c :: pre) t u host port) as (pre' & ->).
    + intros Hi; apply Hn; right; exact Hi.
    + cbn [rev]. rewrite <- app_assoc. eauto.
Qed.

Lemma server_none h : forall pre t u host port, ~ In 58 h -> ~ In 64 h ->
  split_server_loop SNone pre (h ++ t) u host port =
  split_server_loop SNone (rev h ++ pre) t u host port.
Proof.
  induction h as [|c h IH]; intros pre t u host port H1 H2; [reflexivity|].
  cbn [app split_server_loop].
  replace (c =? 58) with false by (symmetry; apply Z.eqb_neq; intros ->; apply H1; left; reflexivity).
  replace (c =? 64) with false by (symmetry; apply Z.eqb_neq; intros ->; apply H2; left; reflexivity).
  rewrite IH by (intros Hi; (apply H1 + apply H2); right; exact Hi).
  cbn [rev]. rewrite <- app_assoc. reflexivity.
Qed.

Lemma server_port p : forall acc pre u host port,
  Forall (fun c => IsDigit c = true) p ->
  split_server_loop (SPort acc) pre p u host port = (u, host, Some (rev acc ++ p)).
Proof.
  induction p as [|c p IH]; intros acc pre u host port H; cbn [split_server_loop].
  - rewrite app_nil_r. reflexivity.
  - inversion H as [|? ? Hc Hp]; subst. replace (c =? 64) with false by (uchr; lia).
    cbn [andb]. rewrite Hc. cbn [negb]. rewrite IH by assumption. cbn [rev].
    rewrite <- app_assoc. reflexivity.
Qed.

Lemma digits_forall p : Forall (fun c => In c (lit "0123456789")) p ->
  Forall (fun c => IsDigit c = true) p.
Proof.
  apply Forall_impl. intros c H. rewrite <- mem_In in H.
  let v := eval vm_compute in (lit "0123456789") in change (lit _) with v in H.
  uchr. lia.
Qed.

Lemma split_compose_server ui h p :
  (forall u, ui = Some u -> ~ In 64 u) -> ~ In 58 h -> ~ In 64 h ->
  (forall x, p = Some x -> Forall (fun c => In c (lit "0123456789")) x) ->
  SplitServer (Some (compose_server ui h p)) = (ui, Some h, p).
Proof.
  intros Hu H1 H2 Hp.
  assert (Hp' : forall x, p = Some x -> Forall (fun c => IsDigit c = true) x)
    by (intros x Hx; apply digits_forall, Hp, Hx).
  clear Hp. unfold SplitServer. 
  assert (E : split_server_loop SNone [] (compose_server ui h p) None None None = (ui, Some h, p)).
  { unfold compose_server. change (lit ":") with [58]. change (lit "@") with [64].
    destruct ui as [u|].
    - rewrite <- app_assoc. cbn [app].
      match goal with |- context [h ++ ?t] => remember t as tl eqn:Et end.
      edestruct (server_user u SNone [] None None (h ++ tl)) as (h' & pre & E1);
        [exact (Hu u eq_refl)|left; reflexivity|]. rewrite E1.
      destruct (server_host h [] pre tl (Some (rev [] ++ u)) h' None H1) as (pre' & E2).
      rewrite E2, app_nil_r. subst tl. destruct p as [p|]; cbn [split_server_loop rev app].
      + change (58 =? 58) with true. cbn iota. rewrite server_port by (apply Hp'; reflexivity).
        rewrite rev_involutive. reflexivity.
      + rewrite rev_involutive. reflexivity.
    - cbn [app]. rewrite server_none by assumption. rewrite app_nil_r.
      destruct p as [p|]; cbn [split_server_loop app].
      + change (58 =? 64) with false. change (58 =? 58) with true. cbn iota.
        rewrite server_port by (apply Hp'; reflexivity).
        rewrite rev_involutive. reflexivity.
      + rewrite rev_involutive. reflexivity. }
  destruct (compose_server ui h p) as [|c s] eqn:Ec; [|exact E].
  cbn in E. injection E as <- <- <-. reflexivity.
Qed.

Lemma server_port_digits s : forall m pre u h p,
  (forall acc, m = SPort acc -> Forall (fun c => IsDigit c = true) acc) ->
  p = None ->
  forall x, snd (split_server_loop m pre s u h p) = Some x -> Forall (fun c => IsDigit c = true) x.
Proof.
  induction s as [|c s IH]; intros m pre u h p Hm -> x; cbn [split_server_loop].
  - destruct m; cbn; try discriminate. intros Hx. injection Hx as <-.
    apply Forall_rev, Hm. reflexivity.
  - assert (N : forall acc', (SHost acc' = SPort acc' -> False)) by discriminate.
    destruct m as [|acc|acc|].
    + destruct (c =? 64); [apply IH; auto; discriminate|].
      destruct (c =? 58); [apply IH; auto|apply IH; auto; discriminate].
      intros a Ha. injection Ha as <-. constructor.
    + destruct (c =? 58); [apply IH; auto|apply IH; auto; discriminate].
      intros a Ha. injection Ha as <-. constructor.
    + destruct (_ && _); [apply IH; auto; discriminate|].
      destruct (IsDigit c) eqn:Ed; cbn [negb].
      * apply IH; auto. intros a Ha. injection Ha as <-. constructor; [exact Ed|]. apply Hm; reflexivity.
      * destruct u; [|apply IH; auto; discriminate]. cbn. intros Hx. injection Hx as <-.
        apply Forall_rev, Hm. reflexivity.
    + destruct (c =? 64); apply IH; auto; discriminate.
Qed.

Lemma isdigit_in c : IsDigit c = true -> In c (lit "0123456789").
Proof.
  intros H. rewrite <- mem_In.
  let v := eval vm_compute in (lit "0123456789") in change (lit "0123456789") with v.
  uchr. lia.
Qed.

Lemma SplitServer_port_digits a x : snd (SplitServer a) = Some x ->
  Forall (fun c => In c (lit "0123456789")) x.
Proof.
  destruct a as [[|c a]|]; cbn [SplitServer]; try discriminate. intros H.
  assert (D : Forall (fun c => IsDigit c = true) x).
  { revert H. apply server_port_digits; [discriminate|reflexivity]. }
  revert D. apply Forall_impl. exact isdigit_in.
Qed.

(** ** Relative *)
Lemma ordinary_iff s : s <> lit "." -> s <> lit ".." -> ordinary s.
Proof. intros H1 H2. split; assumption. Qed.

Lemma common_prefix (P B : list str) :
  exists C P' B', P = C ++ P' /\ B = C ++ B' /\
    (P' = [] \/ B' = [] \/ exists p q P'' B'', P' = p :: P'' /\ B' = q :: B'' /\ p <> q).
Proof.
  revert B; induction P as [|p P IH]; intros B.
  - exists [], [], B. auto.
  - destruct B as [|b B]; [exists [], (p :: P), []; auto|].
    destruct (list_eq_dec Z.eq_dec p b) as [->|Hne].
    + destruct (IH B) as (C & P' & B' & -> & -> & H). exists (b :: C), P', B'. auto.
    + exists [], (p :: P), (b :: B). repeat split; auto. right; right.
      exists p, b, P, B. auto.
Qed.

Lemma relativize_common C P B :
  relativize_loop [] (C ++ P) (C ++ B) = relativize_loop [] P B.
Proof.
  induction C as [|c C IH]; [reflexivity|]. cbn [app relativize_loop].
  rewrite str_eqb_refl. exact IH.
Qed.

Lemma relativize_ups B : forall r P, r <> [] ->
  relativize_loop r P B = repeat dotdot (length B) ++ r.
Proof.
  induction B as [|b B IH]; intros r P Hr; [reflexivity|]. cbn [relativize_loop].
  destruct r as [|x r]; [congruence|]. rewrite IH by discriminate.
  cbn [length repeat]. change (dotdot :: x :: r) with ([dotdot] ++ x :: r).
  rewrite app_assoc, repeat_snoc. reflexivity.
Qed.

Lemma fold_go_cancel X : forall k y,
  fold_left go (repeat dotdot (length X)) (k, X ++ y) = (k, y).
Proof. induction X as [|x X IH]; intros k y; [reflexivity|]. cbn. apply IH. Qed.

Lemma destination_cancel C X ds nm :
  Forall ordinary C -> Forall ordinary X -> Forall ordinary ds -> ordinary nm ->
  destination (C ++ X ++ repeat dotdot (length X) ++ ds ++ [nm]) = Place 0 (C ++ ds) nm.
Proof.
  intros HC HX Hd [N1 N2]. unfold destination.
  rewrite !app_assoc, removelast_last, last_last. rewrite <- !app_assoc.
  rewrite !fold_left_app. rewrite (fold_go_ord C), (fold_go_ord X) by assumption. cbn [fst snd].
  rewrite <- (rev_length X), fold_go_cancel, fold_go_ord by assumption. cbn [fst snd].
  unfold is_dots. change (lit ".") with dot. change (lit "..") with dotdot.
  apply str_eqb_neq in N1, N2. rewrite N1, N2. cbn [orb].
  rewrite app_nil_r, rev_app_distr, !rev_involutive. reflexivity.
Qed.

Lemma destination_dot C :
  Forall ordinary C -> destination (C ++ [dot; []]) = Place 0 C [].
Proof.
  intros HC. unfold destination.
  change [dot; []] with ([dot] ++ [@nil Z]). rewrite app_assoc, removelast_last, last_last.
  rewrite fold_left_app, (fold_go_ord C) by assumption. 
  cbn -[rev app]. f_equal. rewrite app_nil_r. apply rev_involutive.
Qed.

Lemma normalize_of_destination segs D nm : segs <> [] -> destination segs = Place 0 D nm ->
  NormalizeSegments segs = D ++ [nm].
Proof.
  intros Hne Hd. destruct (normalize_spec segs Hne) as [H _]. rewrite Hd in H. exact H.
Qed.

Lemma normalize_ordinary P : P <> [] -> Forall ordinary P -> NormalizeSegments P = P.
Proof.
  intros Hne H. destruct (exists_last Hne) as (D & nm & ->). apply Forall_app in H as [HD Hn].
  inversion Hn; subst. apply normalize_of_destination; [destruct D; discriminate|].
  apply (destination_normal 0); assumption.
Qed.


Lemma relativize_spec P B : P <> [] -> B <> [] -> Forall ordinary P -> Forall ordinary B ->
  plain_segments P -> ~ (exists t, B = P ++ t) ->
  exists e E, RelativizeSegments P B = e :: E /\ e <> [] /\
    NormalizeSegments (removelast B ++ e :: E) = P /\
    Forall (fun s => ~ In 58 s) (e :: E) /\
    (forall s, In s (e :: E) -> In s P \/ s = dot \/ s = dotdot).
Proof.
  intros HP HB OP OB [Hpl Hcol] Hnp.
  destruct (common_prefix P B) as (C & P' & B' & -> & -> & Hcase).
  apply Forall_app in OP as [OC OP']. apply Forall_app in OB as [_ OB'].
  assert (ND : ~ In 58 dot /\ ~ In 58 dotdot)
    by (split; intros H; repeat destruct H as [H|H]; discriminate || exact H).
  assert (HP' : P' <> []).
  { intros ->. apply Hnp. exists B'. rewrite app_nil_r. reflexivity. }
  unfold RelativizeSegments. rewrite relativize_common.
  destruct Hcase as [->|[->|(p & q & P'' & B'' & -> & -> & Hpq)]]; [congruence| |].
  - (* the base is a proper prefix of the path *)
    cbn [relativize_loop]. rewrite app_nil_r in *.
    assert (Hlt : Nat.ltb (length C) (length (C ++ P')) = true).
    { apply Nat.ltb_lt. rewrite app_length. destruct P'; [congruence|cbn; lia]. }
    rewrite Hlt. destruct (exists_last HB) as (C0 & c & ->).
    destruct ((C0 ++ [c])) as [|x y] eqn:Ex; [destruct C0; discriminate|]. rewrite <- Ex in *. clear x y Ex.
    rewrite app_length. cbn [length]. replace (length C0 + 1 - 1)%nat with (length C0) by lia.
    rewrite <- app_assoc, skipn_length_app. cbn [app].
    exists c, P'. split; [reflexivity|]. split.
    { apply (Hpl C0 c P'); [rewrite <- app_assoc; reflexivity|exact HP']. }
    rewrite removelast_last. split.
    { apply normalize_ordinary; [destruct C0; discriminate|].
      change (c :: P') with ([c] ++ P'). rewrite app_assoc. apply Forall_app; auto. }
    rewrite <- app_assoc in Hcol. apply Forall_app in Hcol as [_ Hcol]. split; [exact Hcol|].
    intros s Hs. left. rewrite in_app_iff. right. exact Hs.
  - cbn [relativize_loop]. replace (str_eqb q p) with false
      by (symmetry; apply str_eqb_neq; congruence).
    rewrite relativize_ups by discriminate.
    assert (Hlen : length B'' = length (removelast (q :: B''))).
    { destruct (exists_last (l := q :: B'')) as (X & x & E); [discriminate|].
      rewrite E, removelast_last. apply (f_equal (@length str)) in E. rewrite app_length in E. cbn in E. lia. }
    assert (HX : Forall ordinary (removelast (q :: B''))) by (apply Forall_removelast; exact OB').
    assert (Hrl : removelast (C ++ q :: B'') = C ++ removelast (q :: B'')).
    { apply removelast_app. discriminate. }
    destruct (exists_last HP') as (ds & nm & Eds). rewrite Eds in OP'.
    apply Forall_app in OP' as [Ods Onm]. inversion Onm as [|? ? Onm' _]; subst.
    apply Forall_app in Hcol as [_ Hcol].
    assert (Hnorm : NormalizeSegments (removelast (C ++ q :: B'') ++ repeat dotdot (length B'') ++ p :: P'')
                    = C ++ p :: P'').
    { rewrite Hrl, Hlen, Eds, <- app_assoc. rewrite (app_assoc C ds).
      apply normalize_of_destination.
      - destruct C; [|discriminate]. destruct (removelast (q :: B'')); cbn; [|discriminate].
        destruct ds; discriminate.
      - apply destination_cancel; assumption. }
    destruct (length B'') as [|n] eqn:En.
    + cbn [repeat app] in *. destruct p as [|c p]; [destruct P'' as [|p2 P'']|].
      * exists dot, [[]]. split; [reflexivity|]. split; [discriminate|]. split.
        { rewrite Hrl. destruct (removelast (q :: B'')) as [|? ?]; [|discriminate].
          rewrite app_nil_r. apply normalize_of_destination; [destruct C; discriminate|].
          apply destination_dot. exact OC. }
        split; [constructor; [apply ND|exact Hcol]|].
        intros s [<-|Hs]; [auto|]. left. rewrite in_app_iff. auto.
      * exfalso. apply (Hpl C [] (p2 :: P'')); [reflexivity|discriminate|reflexivity].
      * exists (c :: p), P''. split; [reflexivity|]. split; [discriminate|]. split; [exact Hnorm|].
        split; [exact Hcol|]. intros s Hs. left. rewrite in_app_iff. auto.
    + exists dotdot, (repeat dotdot n ++ p :: P''). split; [reflexivity|]. split; [discriminate|].
      split; [exact Hnorm|]. split.
      * constructor; [apply ND|]. apply Forall_app. split; [|exact Hcol].
        apply Forall_forall. intros x Hx. apply repeat_spec in Hx. subst x. apply ND.
      * intros s [<-|Hs]; [auto|]. rewrite in_app_iff in Hs. destruct Hs as [Hs|Hs].
        -- apply repeat_spec in Hs. auto.
        -- left. rewrite in_app_iff. auto.
Qed.

Lemma join_cons_head (c : Z) (e : str) (E : list str) : exists t : str, join_slash ((c :: e) :: E) = c :: t.
Proof. destruct E; cbn; eauto. Qed.

Lemma uok_dot : uok dot. Proof. apply uok_chr; [reflexivity|constructor]. Qed.
Lemma uok_dotdot : uok dotdot. Proof. apply uok_chr; [reflexivity|apply uok_dot]. Qed.

Lemma relative_resolve us u bs b sch a P B :
  URI us = Ok u -> URI bs = Ok b ->
  scheme u = Some sch -> scheme b = Some sch -> authority u = Some a -> authority b = Some a ->
  P <> [] -> Forall slash_free P -> absPath u = Some (47 :: join P) ->
  B <> [] -> Forall slash_free B -> absPath b = Some (47 :: join B) ->
  Forall ordinary P -> Forall ordinary B -> plain_segments P -> ~ (exists t, B = P ++ t) ->
  exists r, Relative u b = Ok r /\ scheme r = None /\ authority r = None /\ absPath r = None /\
    Resolve r b = Ok u.
Proof.
  intros Hu Hb Su Sb Au Ab P1 P2 P3 B1 B2 B3 OP OB Hpl Hnp.
  assert (Fu := uri_facts_of _ _ Hu). assert (Fb := uri_facts_of _ _ Hb).
  destruct (uri_uok _ _ Hu) as (Uu1 & Uu2 & Uu3 & _ & Uu5 & _).
  destruct (recompose _ _ Hu) as [Cu _].
  assert (Ou : opaquePart u = None).
  { destruct (opaquePart u) eqn:E; [|reflexivity].
    destruct (uf_opq _ Fu _ E) as (_ & H & _). congruence. }
  assert (Ob : opaquePart b = None).
  { destruct (opaquePart b) eqn:E; [|reflexivity].
    destruct (uf_opq _ Fb _ E) as (_ & H & _). congruence. }
  unfold path_of in Cu. rewrite Ou, P3, Su, Au in Cu.
  assert (UP : Forall uok P).
  { rewrite <- (abs_join_split P P1 P2), SplitAbsPath_loop. apply uok_split_segs. cbn.
    apply (uok_split [] 47 (join P) d47). apply Uu3, P3. }
  assert (NP : Forall (no 63) P).
  { rewrite <- (abs_join_split P P1 P2), SplitAbsPath_loop. apply no_split_segs. cbn.
    destruct (uf_abs _ Fu _ P3) as [_ H]. intros Hi. apply H. right; exact Hi. }
  unfold Relative. rewrite Ou, Su, Sb, Au, Ab, P3, B3. cbn [is_none negb andb].
  rewrite str_eqb_refl. cbn [opt_eqb]. rewrite str_eqb_refl. cbn [negb].
  unfold MakeRelPathAbs.
  rewrite (abs_join_split P P1 P2), (abs_join_split B B1 B2).
  rewrite (normalize_ordinary P P1 OP), (normalize_ordinary B B1 OB).
  destruct (relativize_spec P B P1 B1 OP OB Hpl Hnp) as (e & E & -> & He & Hn & Hcol & Hin).
  destruct e as [|c e]; [congruence|]. clear He.
  cbn [opt_app app].
  destruct (join_cons_head c e E) as (t & Ht).
  assert (Uj : uok (c :: t)).
  { rewrite <- Ht. apply uok_join. apply Forall_forall. intros s Hs.
    destruct (Hin s Hs) as [H|[-> | ->]]; [|exact uok_dot|exact uok_dotdot].
    rewrite Forall_forall in UP. apply UP, H. }
  assert (Nj : no 63 (c :: t)).
  { rewrite <- Ht. apply no_join; [discriminate|]. apply Forall_forall. intros s Hs.
    destruct (Hin s Hs) as [H|[-> | ->]].
    - rewrite Forall_forall in NP. apply NP, H.
    - intros [Hi|[]]; discriminate.
    - intros [Hi|[Hi|[]]]; discriminate. }
  assert (Nc : no 58 (c :: t)).
  { rewrite <- Ht. apply no_join; [discriminate|]. exact Hcol. }
  assert (SE : Forall slash_free ((c :: e) :: E)).
  { apply Forall_forall. intros s Hs. destruct (Hin s Hs) as [H|[-> | ->]].
    - rewrite Forall_forall in P2. apply P2, H.
    - intros [Hi|[]]; discriminate.
    - intros [Hi|[Hi|[]]]; discriminate. }
  assert (Hc47 : c <> 47).
  { inversion SE as [|? ? H _]; subst. intros ->. apply H. left; reflexivity. }
  rewrite Ht.
  set (oct := c :: t ++ opt_app [63] (query u)).
  replace ((c :: t) ++ opt_app [63] (query u) ++ opt_app [35] (fragment u))
    with (oct ++ frag_text (fragment u))
    by (unfold oct, frag_text; cbn [app]; rewrite <- app_assoc; reflexivity).
  rewrite URI_intro.
  2: { unfold oct. rewrite app_comm_cons. apply uok_app; [exact Uj|].
       apply uok_opt_app; [exact d63|exact Uu5]. }
  exists (parse_oct oct (fragment u)). split; [reflexivity|].
  assert (Hps : ParseScheme oct = None).
  { unfold ParseScheme, oct. rewrite app_comm_cons. apply parse_scheme_none; [exact Nc|].
    destruct (query u) as [q|]; [right|left; reflexivity]. exists 63, q. auto. }
  assert (Hrel : ParseRelativeURI oct = mkComps None None None (Some (c :: t)) (query u))
    by (apply path_loop_rel0; assumption).
  unfold parse_oct. rewrite Hps, Hrel. cbn [c_opaque c_auth c_abs c_rel c_query].
  cbn [scheme authority absPath]. refine (conj eq_refl (conj eq_refl (conj eq_refl _))).
  unfold Resolve. cbn [absPath relPath truthy scheme authority query fragment orb negb andb is_none].
  rewrite Sb, Ab, B3. cbn [split_rel_opt].
  replace (SplitRelPath (c :: t)) with ((c :: e) :: E).
  2: { rewrite <- Ht, join_slash_join. symmetry. apply rel_join_split; [discriminate|exact SE]. }
  rewrite (abs_join_split B B1 B2), Hn, join_slash_join.
  rewrite <- Hu. f_equal. rewrite <- Cu. unfold compose. cbn [opt_app].
  change (lit ":") with [58]. change (lit "//") with [47; 47]. change (lit "?") with [63].
  change (lit "#") with [35]. reflexivity.
Qed.
