From Verif Require Import Py Uri UriSpec.
Ltac Zify.zify_convert_to_euclidean_division_equations_flag ::= constr:(true).

(** ** Characters *)
Ltac uchr := unfold pct, hexval, hexdigit, IsReserved, IsUnreserved, IsSchemeChar, IsMark,
  IsHex, IsAlphaNum, IsAlpha, IsUpAlpha, IsLowAlpha, IsDigit, mem in *; cbn [existsb] in *.

Lemma hex_digit_iff c : hex_digit c <-> IsHex c = true.
Proof.
  unfold hex_digit. rewrite <- mem_In.
  let v := eval vm_compute in (lit "0123456789ABCDEFabcdef") in change (lit _) with v.
  uchr. lia.
Qed.

Lemma hexdigit_IsHex n : 0 <= n < 16 -> IsHex (hexdigit n) = true.
Proof. intros H. unfold hexdigit. destruct (n <? 10) eqn:E; uchr; lia. Qed.

Lemma hexval_hexdigit n : 0 <= n < 16 -> hexval (hexdigit n) = n.
Proof.
  intros H. unfold hexdigit, hexval. destruct (n <? 10) eqn:E.
  - replace (IsDigit (48 + n)) with true by (uchr; lia). lia.
  - replace (IsDigit (65 + (n - 10))) with false by (uchr; lia).
    replace ((65 + (n - 10) >=? 65) && (65 + (n - 10) <=? 70)) with true by lia. lia.
Qed.

Lemma hexval_bound c : IsHex c = true -> 0 <= hexval c < 16.
Proof.
  intros H. unfold hexval. destruct (IsDigit c) eqn:E1; [uchr; lia|].
  destruct ((c >=? 65) && (c <=? 70)) eqn:E2; uchr; lia.
Qed.

Lemma unescape_pct c t : 0 <= c < 256 ->
  unescape_loop ENone (pct c ++ t) = c :: unescape_loop ENone t.
Proof.
  intros H. unfold pct. cbn [app unescape_loop].
  change (37 =? 37) with true. cbn iota.
  rewrite hexdigit_IsHex by lia. cbn [unescape_loop]. rewrite hexdigit_IsHex by lia.
  rewrite !hexval_hexdigit by lia. f_equal. lia.
Qed.

(** ** Escaping *)
Lemma unescape_escape res s : is_octets s -> UnescapeData (EscapeData res s) = s.
Proof.
  unfold UnescapeData. induction 1 as [|c s Hc Hs IH]; [reflexivity|].
  cbn [EscapeData].
  destruct (res c || negb (IsUnreserved c || IsReserved c)) eqn:E.
  - rewrite unescape_pct by exact Hc. rewrite IH. reflexivity.
  - cbn [app unescape_loop]. replace (c =? 37) with false by (uchr; lia). rewrite IH. reflexivity.
Qed.

Lemma escape_clean res s : is_octets s -> forall x, In x (EscapeData res s) ->
  x = 37 \/ hex_digit x \/ (res x = false /\ (IsUnreserved x = true \/ IsReserved x = true)).
Proof.
  induction 1 as [|c s Hc Hs IH]; intros x Hx; [destruct Hx|].
  cbn [EscapeData] in Hx. apply in_app_iff in Hx as [Hx|Hx]; [|apply IH; exact Hx].
  destruct (res c || negb (IsUnreserved c || IsReserved c)) eqn:E.
  - unfold pct in Hx. destruct Hx as [<-|[<-|[<-|[]]]]; [left; reflexivity| |];
      right; left; apply hex_digit_iff; apply hexdigit_IsHex; lia.
  - destruct Hx as [<-|[]]. right; right.
    apply orb_false_iff in E as [E1 E2]. apply negb_false_iff in E2.
    apply orb_true_iff in E2. auto.
Qed.

Lemma escape_escapes_ok res s : is_octets s -> escapes_ok (EscapeData res s).
Proof.
  induction 1 as [|c s Hc Hs IH]; [constructor|]. cbn [EscapeData].
  destruct (res c || negb (IsUnreserved c || IsReserved c)) eqn:E.
  - unfold pct. cbn [app]. constructor; [| |exact IH]; apply hex_digit_iff, hexdigit_IsHex; lia.
  - cbn [app]. constructor; [|exact IH]. uchr; lia.
Qed.

(** ** Canonical escapes *)
Lemma canonicalize_spec s : escapes_ok s -> is_octets s ->
  exists r, CanonicalizeData s = Ok r /\ CanonicalizeData r = Ok r /\
    UnescapeData r = UnescapeData s /\ is_octets r /\ escapes_ok r.
Proof.
  intros H. unfold UnescapeData. induction H as [|h l s Hh Hl Hs IH|c s Hc Hs IH]; intros Ho.
  - exists []. repeat split; constructor.
  - apply hex_digit_iff in Hh, Hl. inversion Ho as [|? ? Ho1 Ho2]; subst.
    inversion Ho2 as [|? ? Ho3 Ho4]; subst. inversion Ho4 as [|? ? Ho5 Ho6]; subst.
    destruct (IH Ho6) as (r & E1 & E2 & E3 & E4 & E5).
    assert (B1 := hexval_bound h Hh). assert (B2 := hexval_bound l Hl).
    cbn [CanonicalizeData]. change (37 =? 37) with true. cbn iota. rewrite Hh, Hl. cbn [andb].
    rewrite E1. cbn [bind].
    remember (hexval h * 16 + hexval l) as d eqn:Hd.
    destruct (IsUnreserved d) eqn:Eu.
    + exists (d :: r). split; [reflexivity|]. cbn [CanonicalizeData].
      replace (d =? 37) with false by (clear - Eu; uchr; lia). rewrite E2. cbn [bind].
      rewrite Eu. cbn [orb negb]. split; [reflexivity|].
      cbn [unescape_loop]. change (37 =? 37) with true. cbn iota. rewrite Hh. cbn [unescape_loop].
      rewrite Hl. replace (d =? 37) with false by (clear - Eu; uchr; lia).
      rewrite <- Hd, E3. split; [reflexivity|]. split.
      * constructor; [lia|exact E4].
      * constructor; [clear - Eu; uchr; lia|exact E5].
    + exists (37 :: h :: l :: r). split; [reflexivity|]. cbn [CanonicalizeData].
      change (37 =? 37) with true. cbn iota. rewrite Hh, Hl. cbn [andb]. rewrite E2. cbn [bind].
      rewrite <- Hd, Eu. split; [reflexivity|].
      cbn [unescape_loop]. change (37 =? 37) with true. cbn iota. rewrite Hh. cbn [unescape_loop].
      rewrite Hl. rewrite E3. split; [reflexivity|]. split.
      * repeat (constructor; [assumption|]). exact E4.
      * constructor; [apply hex_digit_iff; exact Hh|apply hex_digit_iff; exact Hl|exact E5].
  - inversion Ho as [|? ? Ho1 Ho2]; subst.
    destruct (IH Ho2) as (r & E1 & E2 & E3 & E4 & E5).
    cbn [CanonicalizeData]. apply Z.eqb_neq in Hc. rewrite Hc, E1. cbn [bind].
    destruct (negb (IsUnreserved c || IsReserved c)) eqn:E.
    + assert (H1 : IsHex (hexdigit (c / 16)) = true) by (apply hexdigit_IsHex; lia).
      assert (H2 : IsHex (hexdigit (c mod 16)) = true) by (apply hexdigit_IsHex; lia).
      exists (pct c ++ r). split; [reflexivity|].
      rewrite unescape_pct by exact Ho1. cbn [unescape_loop]. rewrite Hc, E3.
      unfold pct. cbn [app CanonicalizeData]. change (37 =? 37) with true. cbn iota.
      rewrite H1, H2. cbn [andb]. rewrite E2. cbn [bind].
      rewrite !hexval_hexdigit by lia.
      replace (c / 16 * 16 + c mod 16) with c by lia.
      replace (IsUnreserved c) with false by (destruct (IsUnreserved c); [discriminate E|reflexivity]).
      repeat split.
      * constructor; [lia|]. clear - H1 H2 E4. constructor; [uchr; lia|]. constructor; [uchr; lia|exact E4].
      * constructor; [apply hex_digit_iff; exact H1|apply hex_digit_iff; exact H2|exact E5].
    + exists (c :: r). split; [reflexivity|]. cbn [CanonicalizeData]. rewrite Hc, E2. cbn [bind].
      rewrite E. cbn [unescape_loop]. rewrite Hc, E3. repeat split.
      * constructor; assumption.
      * constructor; [apply Z.eqb_neq; exact Hc|exact E5].
Qed.

(** ** Paths *)
Lemma join_slash_join l : join_slash l = join l.
Proof.
  induction l as [|s [|t l] IH]; [reflexivity|cbn; rewrite app_nil_r; reflexivity|].
  change (join_slash (s :: t :: l)) with (s ++ 47 :: join_slash (t :: l)). rewrite IH.
  cbn. reflexivity.
Qed.

Lemma split_loop_nonempty s : forall g, split_path_loop (Some g) s <> [].
Proof.
  induction s as [|c s IH]; intros g; cbn; [discriminate|].
  destruct (c =? 47); [discriminate|apply IH].
Qed.

Lemma split_loop_join s : forall g, join_slash (split_path_loop (Some g) s) = rev g ++ s.
Proof.
  induction s as [|c s IH]; intros g; cbn [split_path_loop].
  - cbn. rewrite app_nil_r. reflexivity.
  - destruct (c =? 47) eqn:E.
    + apply Z.eqb_eq in E. subst c.
      destruct (split_path_loop (Some []) s) as [|t l] eqn:El.
      * exfalso. exact (split_loop_nonempty s [] El).
      * change (join_slash (rev g :: t :: l)) with (rev g ++ 47 :: join_slash (t :: l)).
        rewrite <- El, IH. reflexivity.
    + rewrite IH. cbn [rev]. rewrite <- app_assoc. reflexivity.
Qed.

Lemma split_loop_slash_free s : forall g, slash_free g ->
  Forall slash_free (split_path_loop (Some g) s).
Proof.
  unfold slash_free. induction s as [|c s IH]; intros g Hg; cbn [split_path_loop].
  - constructor; [|constructor]. rewrite <- in_rev. exact Hg.
  - destruct (c =? 47) eqn:E.
    + constructor; [rewrite <- in_rev; exact Hg|]. apply IH. intros [].
    + apply IH. intros [H|H]; [lia|tauto].
Qed.

Lemma split_loop_app g s1 s2 : slash_free s1 ->
  split_path_loop (Some g) (s1 ++ s2) = split_path_loop (Some (rev s1 ++ g)) s2.
Proof.
  revert g; induction s1 as [|c s1 IH]; intros g H; [reflexivity|].
  cbn [app split_path_loop]. replace (c =? 47) with false.
  - rewrite IH by (intros Hi; apply H; right; exact Hi). cbn [rev]. rewrite <- app_assoc. reflexivity.
  - symmetry. apply Z.eqb_neq. intros ->. apply H. left; reflexivity.
Qed.

Lemma split_join l : l <> [] -> Forall slash_free l ->
  split_path_loop (Some []) (join_slash l) = l.
Proof.
  induction l as [|s l IH]; [congruence|]. intros _ H. inversion H as [|? ? Hs Hl]; subst.
  destruct l as [|t l].
  - cbn [join_slash]. rewrite <- (app_nil_r s) at 1. rewrite split_loop_app by exact Hs.
    cbn. rewrite app_nil_r, rev_involutive. reflexivity.
  - change (join_slash (s :: t :: l)) with (s ++ 47 :: join_slash (t :: l)).
    rewrite split_loop_app by exact Hs. cbn [split_path_loop].
    change (47 =? 47) with true. cbn iota. rewrite app_nil_r, rev_involutive.
    rewrite IH; [reflexivity|discriminate|exact Hl].
Qed.

Lemma SplitRelPath_loop p : SplitRelPath p = split_path_loop (Some []) p.
Proof. destruct p; reflexivity. Qed.

Lemma SplitAbsPath_loop p : SplitAbsPath (47 :: p) = split_path_loop (Some []) p.
Proof. reflexivity. Qed.

Lemma rel_split_join p : join (SplitRelPath p) = p /\ Forall slash_free (SplitRelPath p).
Proof.
  rewrite SplitRelPath_loop. split.
  - rewrite <- join_slash_join, split_loop_join. reflexivity.
  - apply split_loop_slash_free. intros [].
Qed.

Lemma abs_split_join p :
  47 :: join (SplitAbsPath (47 :: p)) = 47 :: p /\ Forall slash_free (SplitAbsPath (47 :: p)).
Proof.
  rewrite SplitAbsPath_loop. split.
  - rewrite <- join_slash_join, split_loop_join. reflexivity.
  - apply split_loop_slash_free. intros [].
Qed.

Lemma rel_join_split l : l <> [] -> Forall slash_free l -> SplitRelPath (join l) = l.
Proof. intros. rewrite SplitRelPath_loop, <- join_slash_join. apply split_join; assumption. Qed.

Lemma abs_join_split l : l <> [] -> Forall slash_free l -> SplitAbsPath (47 :: join l) = l.
Proof. intros. rewrite SplitAbsPath_loop, <- join_slash_join. apply split_join; assumption. Qed.

(** ** Normalising segments *)

(** A stack of segments as NormalizeSegments holds it (reversed): ordinary segments on
    top of ".." segments. *)
Definition stack (st : list str) (k : nat) (ord : list str) : Prop :=
  st = ord ++ repeat dotdot k /\ Forall ordinary ord.

Lemma repeat_dd_head k : match repeat dotdot k with [] => k = O | p :: _ => p = dotdot end.
Proof. destruct k; cbn; auto. Qed.

Lemma repeat_snoc {A} (x : A) k : repeat x k ++ [x] = x :: repeat x k.
Proof. induction k; cbn; congruence. Qed.

Lemma rev_repeat {A} (x : A) k : rev (repeat x k) = repeat x k.
Proof. induction k; cbn; [reflexivity|]. rewrite IHk. apply repeat_snoc. Qed.

(** What the loop computes: the position reached is that of [go]. *)
Definition final (p : nat * list str) (l : str) : list str :=
  repeat dotdot (fst p) ++ rev (snd p) ++ [l].

Lemma last_cons_cons {A} (x y : A) l d : last (x :: y :: l) d = last (y :: l) d.
Proof. reflexivity. Qed.

Lemma normalize_loop_spec rest : forall st k ord,
  stack st k ord -> rest <> [] ->
  normalize_loop st rest =
    let dirs := fold_left go (removelast rest) (k, ord) in
    let l := last rest [] in
    if str_eqb l dot then final dirs []
    else if str_eqb l dotdot then
      match snd dirs with
      | [] => repeat dotdot (fst dirs) ++ [dotdot]
      | _ :: d => repeat dotdot (fst dirs) ++ rev d ++ [[]]
      end
    else final dirs l.
Proof.
  induction rest as [|s rest IH]; intros st k ord Hst Hne; [congruence|]. clear Hne.
  destruct rest as [|t rest].
  - (* the last segment *)
    cbn [removelast fold_left last fst snd normalize_loop]. cbv zeta.
    destruct Hst as [-> Hord]. unfold final; cbn [fst snd].
    destruct (str_eqb s dot) eqn:E1.
    { rewrite rev_app_distr, rev_repeat, <- app_assoc. reflexivity. }
    destruct (str_eqb s dotdot) eqn:E2.
    + destruct ord as [|o ord].
      * cbn [app]. destruct k as [|k]; cbn [repeat app rev].
        -- apply str_eqb_eq in E2. subst s. reflexivity.
        -- rewrite (proj2 (str_eqb_eq dotdot dotdot) eq_refl). cbn [andb negb].
           apply str_eqb_eq in E2. subst s. cbn [normalize_loop rev].
           rewrite rev_repeat, !repeat_snoc. cbn [app]. rewrite repeat_snoc. reflexivity.
      * cbn [app]. inversion Hord as [|? ? [Ho1 Ho2] Hord']; subst.
        apply str_eqb_neq in Ho2. rewrite Ho2. cbn [andb negb].
        rewrite rev_app_distr, rev_repeat, <- app_assoc. reflexivity.
    + destruct (ord ++ repeat dotdot k) as [|p st'] eqn:Est; cbn [andb negb normalize_loop].
      * destruct ord; [|discriminate]. destruct k; [reflexivity|discriminate].
      * rewrite <- Est. cbn [rev]. rewrite rev_app_distr, rev_repeat, <- app_assoc. reflexivity.
  - (* a directory segment *)
    assert (Hstep : exists st' k' ord',
      normalize_loop st (s :: t :: rest) = normalize_loop st' (t :: rest) /\
      stack st' k' ord' /\ go (k, ord) s = (k', ord')).
    { remember (t :: rest) as rest' eqn:Hr. cbn [normalize_loop]. unfold go.
      change (lit ".") with dot. change (lit "..") with dotdot. cbn [fst snd].
      destruct (str_eqb s dot) eqn:E1.
      { subst rest'. exists st, k, ord. auto. }
      destruct Hst as [-> Hord].
      destruct (str_eqb s dotdot) eqn:E2.
      - destruct ord as [|o ord].
        + cbn [app]. apply str_eqb_eq in E2. subst s.
          exists (dotdot :: repeat dotdot k), (S k), [].
          destruct k as [|k]; cbn [repeat].
          * repeat split; auto.
          * rewrite (proj2 (str_eqb_eq dotdot dotdot) eq_refl). cbn [andb negb]. repeat split; auto.
        + inversion Hord as [|? ? [Ho1 Ho2] Hord']; subst. cbn [app].
          apply str_eqb_neq in Ho2. rewrite Ho2. cbn [andb negb].
          exists (ord ++ repeat dotdot k), k, ord. repeat split; auto.
      - exists ((s :: ord) ++ repeat dotdot k), k, (s :: ord). split.
        + destruct (ord ++ repeat dotdot k) as [|p st'] eqn:Est; cbn [andb negb app];
            rewrite ?Est; reflexivity.
        + split; [|reflexivity]. split; [reflexivity|]. constructor; [|exact Hord].
          split; apply str_eqb_neq; assumption. }
    destruct Hstep as (st' & k' & ord' & -> & Hst' & Hgo).
    rewrite (IH st' k' ord' Hst') by discriminate.
    rewrite last_cons_cons.
    change (removelast (s :: t :: rest)) with (s :: removelast (t :: rest)).
    cbn [fold_left]. rewrite Hgo. reflexivity.
Qed.

Lemma go_ordinary p s : Forall ordinary (snd p) -> Forall ordinary (snd (go p s)).
Proof.
  intros H. unfold go. change (lit ".") with dot. change (lit "..") with dotdot.
  destruct (str_eqb s dot) eqn:E1; [exact H|].
  destruct (str_eqb s dotdot) eqn:E2.
  - destruct (snd p) as [|? d] eqn:E; cbn; [constructor|]. inversion H; assumption.
  - cbn. constructor; [|exact H]. split; apply str_eqb_neq; assumption.
Qed.

Lemma fold_go_ordinary l : forall p, Forall ordinary (snd p) ->
  Forall ordinary (snd (fold_left go l p)).
Proof. induction l as [|s l IH]; intros p H; [exact H|]. cbn. apply IH, go_ordinary, H. Qed.

(** NormalizeSegments in terms of [destination]. *)
Ltac dm := match goal with |- match ?x with _ => _ end = _ =>
  transitivity x; [destruct x; reflexivity|rewrite <- ?app_assoc; reflexivity] end.

Lemma normalize_spec segs : segs <> [] ->
  let d := destination segs in
  NormalizeSegments segs = repeat dotdot (ups d) ++ downs d ++ [name d] /\
  Forall ordinary (downs d) /\ ordinary (name d).
Proof.
  intros Hne. unfold NormalizeSegments, destination, is_dots.
  change (lit ".") with dot. change (lit "..") with dotdot.
  rewrite (normalize_loop_spec segs [] 0 []) by (try split; auto).
  cbv zeta.
  assert (Hord : Forall ordinary (snd (fold_left go (removelast segs) (0%nat, [])))).
  { apply fold_go_ordinary. constructor. }
  destruct (fold_left go (removelast segs) (0%nat, [])) as [k ord] eqn:Ef.
  cbn [fst snd] in *. set (l := last segs []) in *.
  assert (Lapp : forall (a : list str) x, last (a ++ [x]) [] = x) by (intros; apply last_last).
  assert (Hnil : ordinary []) by (split; discriminate).
  unfold final; cbn [fst snd].
  destruct (str_eqb l dot) eqn:E1; cbn [orb].
  - (* trailing dot *)
    replace (go (k, ord) l) with (k, ord)
      by (unfold go; change (lit ".") with dot; rewrite E1; reflexivity).
    cbn [ups downs name fst snd].
    rewrite app_assoc, Lapp. split; [|split; [apply Forall_rev; exact Hord|exact Hnil]].
    dm.
  - destruct (str_eqb l dotdot) eqn:E2.
    + unfold go. change (lit ".") with dot. change (lit "..") with dotdot. rewrite E1, E2.
      cbn [fst snd]. destruct ord as [|o ord]; cbn [ups downs name fst snd].
      * rewrite Lapp. rewrite str_eqb_refl.
        split; [|split; [constructor|exact Hnil]].
        destruct (repeat dotdot k ++ [dotdot]) eqn:E; [destruct k; discriminate|].
        rewrite <- E, repeat_snoc. reflexivity.
      * rewrite app_assoc, Lapp.
        inversion Hord; subst.
        split; [|split; [apply Forall_rev; assumption|exact Hnil]].
        dm.
    + cbn [ups downs name]. rewrite app_assoc, Lapp, E2.
      split; [|split; [apply Forall_rev; exact Hord|split; apply str_eqb_neq; assumption]].
      dm.
Qed.

Lemma fold_go_dotdot k : forall n, fold_left go (repeat dotdot k) (n, []) = ((n + k)%nat, []).
Proof.
  induction k as [|k IH]; intros n; cbn [repeat fold_left]; [rewrite Nat.add_0_r; reflexivity|].
  replace (go (n, []) dotdot) with (S n, @nil str) by reflexivity.
  rewrite IH. f_equal. lia.
Qed.

Lemma go_ord p s : ordinary s -> go p s = (fst p, s :: snd p).
Proof.
  intros [H1 H2]. unfold go. change (lit ".") with dot. change (lit "..") with dotdot.
  apply str_eqb_neq in H1, H2. rewrite H1, H2. reflexivity.
Qed.

Lemma fold_go_ord l : forall p, Forall ordinary l ->
  fold_left go l p = (fst p, rev l ++ snd p).
Proof.
  induction l as [|s l IH]; intros p H; cbn [fold_left].
  - destruct p; reflexivity.
  - inversion H; subst. rewrite go_ord by assumption. rewrite IH by assumption.
    cbn [fst snd rev]. rewrite <- app_assoc. reflexivity.
Qed.

Lemma destination_normal k ds nm :
  Forall ordinary ds -> ordinary nm ->
  destination (repeat dotdot k ++ ds ++ [nm]) = Place k ds nm.
Proof.
  intros Hd [Hn1 Hn2]. unfold destination. rewrite app_assoc, removelast_last, last_last.
  rewrite fold_left_app, fold_go_dotdot, fold_go_ord by exact Hd. cbn [fst snd].
  rewrite app_nil_r. unfold is_dots. change (lit ".") with dot. change (lit "..") with dotdot.
  apply str_eqb_neq in Hn1, Hn2. rewrite Hn1, Hn2. cbn [orb]. rewrite rev_involutive. reflexivity.
Qed.

Lemma normal_shape k ds nm :
  Forall ordinary ds -> ordinary nm -> normal (repeat dotdot k ++ ds ++ [nm]).
Proof.
  intros Hd Hn. assert (Ho : Forall ordinary (ds ++ [nm])).
  { apply Forall_app. split; [exact Hd|]. constructor; [exact Hn|constructor]. }
  clear Hd Hn. set (o := ds ++ [nm]) in *. clearbody o. clear ds nm. split.
  - change (lit ".") with dot. intros Hi. apply in_app_iff in Hi as [Hi|Hi].
    + apply repeat_spec in Hi. discriminate.
    + rewrite Forall_forall in Ho. apply Ho in Hi as [Hi _]. congruence.
  - change (lit "..") with dotdot. induction k as [|k IH]; intros l1 s l2 He.
    + cbn in He. exfalso. rewrite Forall_forall in Ho.
      assert (Hi : In dotdot o) by (rewrite He; apply in_app_iff; right; right; left; reflexivity).
      apply Ho in Hi as [_ Hi]. congruence.
    + cbn [repeat app] in He. destruct l1 as [|x l1]; cbn in He.
      * injection He as -> _. reflexivity.
      * injection He as _ He. apply (IH l1 s l2). exact He.
Qed.

Lemma normalize_property segs : segs <> [] ->
  normal (NormalizeSegments segs) /\
  destination (NormalizeSegments segs) = destination segs /\
  NormalizeSegments (NormalizeSegments segs) = NormalizeSegments segs.
Proof.
  intros Hne. destruct (normalize_spec segs Hne) as (He & Hd & Hn).
  set (d := destination segs) in *. rewrite He.
  split; [apply normal_shape; assumption|].
  rewrite destination_normal by assumption. split; [destruct d; reflexivity|].
  assert (Hne2 : repeat dotdot (ups d) ++ downs d ++ [name d] <> []).
  { intros H. apply (f_equal (@length str)) in H. rewrite !app_length in H. cbn in H. lia. }
  destruct (normalize_spec _ Hne2) as (He2 & _ & _).
  rewrite He2, destination_normal by assumption. reflexivity.
Qed.
