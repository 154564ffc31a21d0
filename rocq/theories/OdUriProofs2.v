(** Reading $expand and $select. *)
From Verif Require Import Py Iso Dec Shapes XmlChars Xsd Imscp Uri OdExpr OdExprSpec OdExprProofs OdUri OdUriSpec OdUriProofs.
Open Scope Z_scope.
Open Scope list_scope.

Section Read.
Variable start id : Z -> bool.
Hypothesis Hcl : classes start id.
Notation ident := (ParseSimpleIdentifier start id).
Notation expand_path := (expand_path start id).
Notation expand_loop := (expand_loop start id).
Notation identifier := (identifier start id).

Lemma run_elim p s : forall a b, run p s = (a, b) -> s = a ++ b /\ Forall (fun c => p c = true) a /\ match b with [] => True | c :: _ => p c = false end.
Proof.
  induction s as [|c s IH]; intros a b; cbn [run].
  - intros [= <- <-]. now repeat split.
  - destruct (p c) eqn:E.
    + destruct (run p s) as [r t]. intros [= <- <-]. destruct (IH r t eq_refl) as (-> & F & H). repeat split; [now constructor|exact H].
    + intros [= <- <-]. repeat split; [constructor|exact E].
Qed.
Lemma ident_elim s n r : ident s = Some (n, r) -> identifier n /\ s = n ++ r.
Proof.
  unfold ParseSimpleIdentifier. generalize (S (length s)). intros f. revert s n r. induction f as [|f IH]; intros s n r; cbn [ident_loop]; [discriminate|].
  destruct s as [|c s]; [discriminate|]. destruct (start c) eqn:E; [|discriminate]. destruct (run id s) as [a b] eqn:R.
  destruct (run_elim _ _ _ _ R) as (-> & F & _).
  assert (forall n0 r0, Some (c :: a, b) = Some (n0, r0) -> identifier n0 /\ c :: a ++ b = n0 ++ r0) as K.
  { intros n0 r0 [= <- <-]. split; [now constructor|reflexivity]. }
  destruct b as [|d b]; [apply K|].
  destruct (Z.eq_dec d 46) as [->|Hd].
  - destruct (ident_loop start id f b) as [[m t]|] eqn:L; [|discriminate]. intros [= <- <-]. apply IH in L. destruct L as [I ->].
    split; [now apply IdDot|]. cbn. now rewrite <- app_assoc.
  - intros H. apply K. rewrite <- H. destruct d as [|d|d]; try reflexivity. do 6 (destruct d as [d|d|]; try reflexivity). congruence.
Qed.

(** The rest of a path *)
Definition more_text (p : list str) : str := concat (map (fun n => 47 :: n) p).
Lemma path_text_more p t : path_text start id p t <-> exists n p', p = n :: p' /\ t = n ++ more_text p' /\ Forall identifier p.
Proof.
  split.
  - induction 1 as [n Hn|n p t Hn H (m & p' & -> & -> & F)].
    + exists n, []. cbn. rewrite app_nil_r. auto.
    + exists n, (m :: p'). auto.
  - intros (n & p' & -> & -> & F). revert n F. induction p' as [|m p' IH]; intros n F; inversion F; subst.
    + cbn. rewrite app_nil_r. now constructor.
    + cbn [more_text map concat]. constructor; auto.
Qed.
Definition path_end (rest : str) : Prop := match rest with [] => True | c :: _ => c = 44 end.
Lemma path_end_id rest : path_end rest -> id_end id rest.
Proof. intros H. apply (stop_id_end _ _ Hcl). destruct rest as [|c r]; [exact I|]. cbn in *. subst. auto 12. Qed.
Lemma more_end p rest : path_end rest -> id_end id (more_text p ++ rest).
Proof.
  intros H. destruct p as [|n p]; [now apply path_end_id|]. apply (stop_id_end _ _ Hcl). cbn. auto 12.
Qed.
Lemma expand_path_read p : forall f rest, Forall identifier p -> path_end rest -> (length p < f)%nat ->
  expand_path f (more_text p ++ rest) = Ok (p, rest).
Proof.
  induction p as [|n p IH]; intros f rest F H L; (destruct f as [|f]; [inversion L|]); cbn [OdUri.expand_path].
  - cbn [more_text map concat app]. destruct rest as [|c r]; [reflexivity|]. cbn in H. subst. reflexivity.
  - inversion F; subst. cbn [more_text map concat app]. fold (more_text p). rewrite <- app_assoc. rewrite (ident_app start id Hcl n) by (auto; now apply more_end).
    rewrite IH by (auto; cbn in L; lia). reflexivity.
Qed.
Lemma expand_path_elim f : forall s p r, expand_path f s = Ok (p, r) -> s = more_text p ++ r /\ Forall identifier p.
Proof.
  induction f as [|f IH]; intros s p r; cbn [OdUri.expand_path]; [discriminate|].
  assert (Ok ([], s) = Ok (p, r) -> s = more_text p ++ r /\ Forall identifier p) as K by (intros [= <- <-]; now split).
  destruct s as [|c s]; [exact K|]. destruct (Z.eq_dec c 47) as [->|Hc].
  - destruct (ident s) as [[n t]|] eqn:E; [|discriminate]. apply ident_elim in E. destruct E as [I ->].
    destruct (expand_path f t) as [[q u]|e] eqn:P; [|discriminate]. cbn [bind]. intros [= <- <-].
    apply IH in P. destruct P as [-> F]. split; [cbn; now rewrite <- app_assoc|now constructor].
  - intros H. apply K. rewrite <- H. destruct c as [|c|c]; try reflexivity. do 6 (destruct c as [c|c|]; try reflexivity). congruence.
Qed.
Lemma expand_path_err f : forall s e, (length s < f)%nat -> expand_path f s = Err e -> e = ValueError.
Proof.
  induction f as [|f IH]; intros s e L; [inversion L|]. cbn [OdUri.expand_path].
  destruct s as [|c s]; [discriminate|].
  assert (Ok (@nil str, c :: s) = Err e -> e = ValueError) as K by discriminate.
  destruct (Z.eq_dec c 47) as [->|Hc].
  - destruct (ident s) as [[n t]|] eqn:E; [|congruence]. apply ident_len in E. cbn in L.
    destruct (expand_path f t) as [[q u]|e'] eqn:P; [discriminate|]. cbn [bind]. intros [= ->]. apply (IH t); [lia|exact P].
  - intros H. apply K. rewrite <- H. destruct c as [|c|c]; try reflexivity. do 6 (destruct c as [c|c|]; try reflexivity). congruence.
Qed.
Lemma more_len p : (length p <= length (more_text p))%nat.
Proof. induction p as [|n p IH]; [apply le_n|]. cbn [more_text map concat length]. fold (more_text p). rewrite app_length. cbn. lia. Qed.

Lemma expand_loop_read ps t : expand_text start id ps t -> forall f d, (length t < f)%nat -> expand_loop f d t = Ok (fold_left add_one ps d).
Proof.
  induction 1 as [p t Hp|p t ps u Hp Hps IH]; intros f d L; (destruct f as [|f]; [inversion L|]); cbn [OdUri.expand_loop];
    apply path_text_more in Hp; destruct Hp as (n & p' & -> & -> & F); inversion F; subst.
  - rewrite <- (app_nil_r (more_text p')) at 1. rewrite (ident_app start id Hcl n) by (auto; now apply more_end).
    rewrite (expand_path_read p' _ []) by (cbn; auto; pose proof (more_len p'); rewrite app_length; lia).
    reflexivity.
  - rewrite <- app_assoc. rewrite (ident_app start id Hcl n) by (auto; now apply more_end).
    rewrite (expand_path_read p' _ (44 :: u)) by (cbn; auto; pose proof (more_len p'); rewrite !app_length; lia).
    cbn [bind]. apply IH. rewrite app_length in L. cbn in L. lia.
Qed.
Lemma expand_loop_elim f : forall d s r, expand_loop f d s = Ok r -> exists ps, expand_text start id ps s.
Proof.
  induction f as [|f IH]; intros d s r; cbn [OdUri.expand_loop]; [discriminate|].
  destruct (ident s) as [[n t]|] eqn:E; [|discriminate]. apply ident_elim in E. destruct E as [I ->].
  destruct (expand_path _ t) as [[q u]|e'] eqn:P; [|discriminate]. cbn [bind]. apply expand_path_elim in P. destruct P as [-> F].
  assert (path_text start id (n :: q) (n ++ more_text q)) as Hp. { apply path_text_more. exists n, q. auto. }
  destruct u as [|c u].
  - intros _. exists [n :: q]. rewrite app_nil_r. now constructor.
  - destruct (Z.eq_dec c 44) as [->|Hc].
    + intros H. apply IH in H. destruct H as (ps & H). exists ((n :: q) :: ps). rewrite app_assoc. now constructor.
    + intros H. exfalso. revert H. destruct c as [|c|c]; try discriminate. do 6 (destruct c as [c|c|]; try discriminate). congruence.
Qed.
Lemma expand_loop_err f : forall d s e, (length s < f)%nat -> expand_loop f d s = Err e -> e = ValueError.
Proof.
  induction f as [|f IH]; intros d s e L; [inversion L|]. cbn [OdUri.expand_loop].
  destruct (ident s) as [[n t]|] eqn:E; [|congruence]. pose proof (ident_len _ _ _ _ _ E) as Lt.
  destruct (expand_path _ t) as [[q u]|e'] eqn:P; cbn [bind].
  - apply expand_path_elim in P. destruct P as [-> F]. rewrite app_length in Lt. destruct u as [|c u]; [discriminate|].
    destruct (Z.eq_dec c 44) as [->|Hc].
    + apply IH. cbn in Lt. lia.
    + destruct c as [|c|c]; try congruence. do 6 (destruct c as [c|c|]; try congruence).
  - intros [= ->]. eapply expand_path_err; [|exact P]; lia.
Qed.
Lemma expand_text_paths ps t : expand_text start id ps t -> ps <> [] /\ Forall (fun p => p <> [] /\ Forall identifier p) ps.
Proof.
  induction 1 as [p t Hp|p t ps u Hp Hps IH]; (split; [discriminate|]); apply path_text_more in Hp; destruct Hp as (n & p' & -> & _ & F);
    constructor; try (split; [discriminate|exact F]); [constructor|apply IH].
Qed.

(** ** $select *)
Theorem expand_reads ps t : expand_text start id ps t -> exists d, ParseExpandOption start id t = Ok d /\ tidy d /\ holds_just d ps.
Proof.
  intros H. eexists. split; [apply (expand_loop_read ps t H); lia|]. apply add_all_nil. apply expand_text_paths in H.
  eapply Forall_impl; [|apply H]. now intros p [? _].
Qed.
Theorem expand_refuses t : (forall ps, ~ expand_text start id ps t) -> ParseExpandOption start id t = Err ValueError.
Proof.
  intros H. unfold ParseExpandOption. destruct (expand_loop _ [] t) as [d|e] eqn:E.
  - apply expand_loop_elim in E. destruct E as (ps & E). destruct (H ps E).
  - apply expand_loop_err in E; [now subst|lia].
Qed.
Hypothesis Hstar : start 42 = false.
Notation star_or_ident := (star_or_ident start id).
Notation select_path := (select_path start id).
Notation select_loop := (select_loop start id).

Lemma wsp_elim s : exists w, spaces w /\ s = w ++ wsp s.
Proof.
  induction s as [|c s (w & Hw & E)]; [exists []; split; [constructor|reflexivity]|]. cbn [wsp]. destruct (is_wsp c) eqn:F.
  - exists (c :: w). split; [constructor; [unfold is_wsp in F; lia|exact Hw]|]. cbn. now rewrite <- E.
  - exists []; split; [constructor|reflexivity].
Qed.
(** A name of $select with white space before it *)
Definition sname (n : str) : Prop := identifier n \/ n = [42].
Lemma ident_head n : identifier n -> exists c t, n = c :: t /\ is_wsp c = false /\ c <> 42.
Proof.
  intros H. destruct (identifier_nonempty _ _ _ H) as (c & t & -> & S). exists c, t. repeat split.
  - destruct (is_wsp c) eqn:E; [|reflexivity]. rewrite (start_mark _ _ Hcl) in S; [discriminate|]. unfold is_wsp in E. cbn. lia.
  - intros ->. congruence.
Qed.
Lemma not42 c (s : str) : c <> 42 ->
  match c :: s with 42 :: s1 => Ok ([42], s1) | s1 => match ident s1 with Some x => Ok x | None => Err ValueError end end =
  match ident (c :: s) with Some x => Ok x | None => Err ValueError end.
Proof. intros H. destruct c as [|c|c]; try reflexivity. do 6 (destruct c as [c|c|]; try reflexivity). congruence. Qed.
Lemma star_read n w rest : sname n -> spaces w -> (n <> [42] -> id_end id rest) -> star_or_ident (w ++ n ++ rest) = Ok (n, rest).
Proof.
  intros H Hw Hr. unfold OdUri.star_or_ident. rewrite wsp_spaces by exact Hw. destruct H as [H| ->].
  - destruct (ident_head n H) as (c & t & -> & W & S). cbn [app]. rewrite wsp_id by exact W. rewrite not42 by exact S.
    change (c :: t ++ rest) with ((c :: t) ++ rest). rewrite (ident_app _ _ Hcl _ _ H); [reflexivity|]. apply Hr. congruence.
  - reflexivity.
Qed.
Lemma star_elim s n r : star_or_ident s = Ok (n, r) -> exists w, spaces w /\ sname n /\ s = w ++ n ++ r.
Proof.
  unfold OdUri.star_or_ident. destruct (wsp_elim s) as (w & Hw & E). destruct (wsp s) as [|c t].
  - destruct (ident []) as [[m u]|] eqn:I; [|discriminate]. apply ident_elim in I. destruct I as [I E2]. intros [= <- <-]. exists w. repeat split; [exact Hw|now left|].
    rewrite E. f_equal. exact E2.
  - destruct (Z.eq_dec c 42) as [->|Hc].
    + intros [= <- <-]. exists w. repeat split; [exact Hw|now right|exact E].
    + rewrite not42 by exact Hc. destruct (ident (c :: t)) as [[m u]|] eqn:I; [|discriminate]. apply ident_elim in I. destruct I as [I E2].
      intros [= <- <-]. exists w. repeat split; [exact Hw|now left|]. rewrite E. f_equal. exact E2.
Qed.
Lemma star_err s e : star_or_ident s = Err e -> e = ValueError.
Proof.
  unfold OdUri.star_or_ident. destruct (wsp s) as [|c t].
  - destruct (ident []); congruence.
  - destruct (Z.eq_dec c 42) as [->|Hc]; [discriminate|]. rewrite not42 by exact Hc. destruct (ident (c :: t)); congruence.
Qed.
Lemma sname_len n : sname n -> (0 < length n)%nat.
Proof. intros [H| ->]; [|cbn; lia]. destruct (ident_head n H) as (c & t & -> & _). cbn. lia. Qed.

Definition item_end (rest : str) : Prop := match rest with [] => True | c :: _ => In c [32; 9; 44] end.
Lemma item_end_id rest : item_end rest -> id_end id rest.
Proof. intros H. apply (stop_id_end _ _ Hcl). destruct rest as [|c r]; [exact I|]. cbn in *. intuition. Qed.
Lemma item_end47 {A} rest (f : str -> A) (g : A) : item_end rest -> match rest with 47 :: s => f s | _ => g end = g.
Proof. destruct rest as [|c r]; [reflexivity|]. cbn. intros [<- |[<- |[<- |[]]]]; reflexivity. Qed.
(** The rest of an item after its first name *)
Inductive rest_text : str -> list str -> str -> Prop :=
| RT0 : forall n, rest_text n [] []
| RTn : forall n m p w t, n <> [42] -> sname m -> spaces w -> rest_text m p t -> rest_text n (m :: p) (47 :: w ++ m ++ t).
Lemma rest_text_end n p t rest : rest_text n p t -> item_end rest -> id_end id (t ++ rest).
Proof.
  intros H Hr. destruct H; [now apply item_end_id|]. apply (stop_id_end _ _ Hcl). cbn. auto 12.
Qed.
Lemma is_star_iff n : is_star n = true <-> n = [42]. Proof. unfold is_star. apply str_eqb_eq. Qed.
Lemma select_path_read n p t : rest_text n p t -> forall f rest, item_end rest -> (length p < f)%nat ->
  select_path f n (t ++ rest) = Ok (p, rest).
Proof.
  induction 1 as [n|n m p w t Hn Hm Hw H IH]; intros f rest He L; (destruct f as [|f]; [inversion L|]); cbn [OdUri.select_path].
  - cbn [app]. destruct (is_star n); [reflexivity|]. now rewrite item_end47.
  - destruct (is_star n) eqn:E; [now apply is_star_iff in E|]. cbn [app]. rewrite <- !app_assoc.
    rewrite (star_read m w) by (auto; intros _; now apply (rest_text_end m p)). cbn [bind].
    rewrite IH by (auto; cbn in L; lia). reflexivity.
Qed.
Lemma select_path_elim f : forall n s p r, select_path f n s = Ok (p, r) -> exists t, rest_text n p t /\ s = t ++ r.
Proof.
  induction f as [|f IH]; intros n s p r; cbn [OdUri.select_path]; [discriminate|].
  assert (Ok ([], s) = Ok (p, r) -> exists t, rest_text n p t /\ s = t ++ r) as K.
  { intros [= <- <-]. exists []. split; [constructor|reflexivity]. }
  destruct (is_star n) eqn:E; [exact K|]. destruct s as [|c s]; [exact K|]. destruct (Z.eq_dec c 47) as [->|Hc].
  - destruct (star_or_ident s) as [[m u]|] eqn:S; [|discriminate]. apply star_elim in S. destruct S as (w & Hw & Hm & ->). cbn [bind].
    destruct (select_path f m u) as [[q v]|] eqn:P; [|discriminate]. cbn [bind]. intros [= <- <-].
    apply IH in P. destruct P as (t & Ht & ->). exists (47 :: w ++ m ++ t). split.
    + constructor; auto. intros ->. discriminate.
    + cbn. now rewrite <- !app_assoc.
  - intros H. apply K. rewrite <- H. destruct c as [|c|c]; try reflexivity. do 6 (destruct c as [c|c|]; try reflexivity). congruence.
Qed.
Lemma select_path_err f : forall n s e, (length s < f)%nat -> select_path f n s = Err e -> e = ValueError.
Proof.
  induction f as [|f IH]; intros n s e L; [inversion L|]. cbn [OdUri.select_path].
  destruct (is_star n); [discriminate|]. destruct s as [|c s]; [discriminate|].
  assert (Ok (@nil str, c :: s) = Err e -> e = ValueError) as K by discriminate.
  destruct (Z.eq_dec c 47) as [->|Hc].
  - destruct (star_or_ident s) as [[m u]|] eqn:S; [|intros [= <-]; now apply star_err in S].
    apply star_elim in S. destruct S as (w & Hw & Hm & ->). cbn [bind]. apply sname_len in Hm. cbn in L. rewrite !app_length in L.
    destruct (select_path f m u) as [[q v]|] eqn:P; [discriminate|]. cbn [bind]. intros [= ->]. apply (IH m u); [lia|exact P].
  - intros H. apply K. rewrite <- H. destruct c as [|c|c]; try reflexivity. do 6 (destruct c as [c|c|]; try reflexivity). congruence.
Qed.
Lemma item_text_rest p t : item_text start id p t <-> exists n p' w t', p = n :: p' /\ t = w ++ n ++ t' /\ spaces w /\ sname n /\ rest_text n p' t'.
Proof.
  split.
  - induction 1 as [n w Hn Hw|w Hw|n p w t Hn Hw H (m & p' & w' & t' & -> & -> & Hw' & Hm & R)].
    + exists n, [], w, []. rewrite app_nil_r. repeat split; [exact Hw|now left|constructor].
    + exists [42], [], w, []. repeat split; [exact Hw|now right|constructor].
    + exists n, (m :: p'), w, (47 :: w' ++ m ++ t'). repeat split; [exact Hw|now left|]. constructor; auto.
      destruct (ident_head n Hn) as (c & u & -> & _ & Hc). congruence.
  - intros (n & p' & w & t' & -> & -> & Hw & Hn & R). revert w Hw. induction R as [n|n m p w t Hs Hm Hw' H IH]; intros w0 Hw0.
    + rewrite app_nil_r. destruct Hn as [Hn| ->]; now constructor.
    + destruct Hn as [Hn| ->]; [|congruence]. constructor; auto.
Qed.
Lemma rest_len n p t : rest_text n p t -> (length p <= length t)%nat.
Proof. induction 1; cbn [length]; [lia|]. rewrite !app_length. lia. Qed.
Lemma spaces_end w rest : spaces w -> item_end rest -> item_end (w ++ rest).
Proof. intros H Hr. destruct H as [|c w Hc H]; [exact Hr|]. cbn. destruct Hc as [-> | ->]; auto. Qed.

Lemma wsp_spaces2 w s : spaces w -> star_or_ident (wsp (w ++ s)) = star_or_ident s.
Proof.
  intros H. rewrite wsp_spaces by exact H. unfold OdUri.star_or_ident. f_equal.
  assert (wsp (wsp s) = wsp s) as ->; [|reflexivity].
  induction s as [|c s IH]; [reflexivity|]. cbn [wsp]. destruct (is_wsp c) eqn:E; [exact IH|now apply wsp_id].
Qed.
Lemma select_loop_read ps t : select_text start id ps t -> forall f d, (length t < f)%nat -> select_loop f d t = Ok (fold_left add_one ps d).
Proof.
  induction 1 as [p t w Hp Hw|p t w ps u Hp Hw Hps IH]; intros f d L; (destruct f as [|f]; [inversion L|]); cbn [OdUri.select_loop];
    apply item_text_rest in Hp; destruct Hp as (n & p' & w' & t' & -> & -> & Hw' & Hn & R); pose proof (rest_len _ _ _ R) as Lr.
  - rewrite <- !app_assoc. rewrite wsp_spaces2 by exact Hw'. change (n ++ t' ++ w) with ([] ++ n ++ t' ++ w). 
    rewrite <- (app_nil_r w). pose proof (spaces_end w [] Hw I) as He.
    rewrite (star_read n []) by (auto; try constructor; intros _; now apply (rest_text_end n p')). cbn [bind].
    rewrite (select_path_read n p' t' R _ _ He) by (rewrite ?app_length in *; cbn; lia). cbn [bind].
    rewrite wsp_spaces by exact Hw. reflexivity.
  - rewrite <- !app_assoc. rewrite wsp_spaces2 by exact Hw'. change (n ++ t' ++ w ++ 44 :: u) with ([] ++ n ++ t' ++ w ++ 44 :: u).
    assert (item_end (w ++ 44 :: u)) as He by (apply spaces_end; cbn; auto).
    rewrite (star_read n []) by (auto; try constructor; intros _; now apply (rest_text_end n p')). cbn [bind].
    rewrite (select_path_read n p' t' R _ _ He) by (rewrite ?app_length in *; cbn; lia). cbn [bind].
    rewrite wsp_spaces by exact Hw. rewrite (wsp_id 44) by reflexivity. apply IH. rewrite !app_length in L. cbn in L. lia.
Qed.
Lemma select_loop_elim f : forall d s r, select_loop f d s = Ok r -> exists ps, select_text start id ps s.
Proof.
  induction f as [|f IH]; intros d s r; cbn [OdUri.select_loop]; [discriminate|].
  destruct (wsp_elim s) as (w0 & Hw0 & E0).
  destruct (star_or_ident (wsp s)) as [[n t]|] eqn:E; [|discriminate]. apply star_elim in E. destruct E as (w & Hw & Hn & E). cbn [bind].
  destruct (select_path _ n t) as [[q u]|e'] eqn:P; [|discriminate]. cbn [bind]. apply select_path_elim in P. destruct P as (t' & R & ->).
  assert (item_text start id (n :: q) ((w0 ++ w) ++ n ++ t')) as Hp.
  { apply item_text_rest. exists n, q, (w0 ++ w), t'. repeat split; auto. apply Forall_app. now split. }
  destruct (wsp_elim u) as (w1 & Hw1 & E1). rewrite E1 in E. rewrite E0, E. destruct (wsp u) as [|c v].
  - intros _. exists [n :: q]. rewrite app_nil_r. replace (w0 ++ w ++ n ++ t' ++ w1) with (((w0 ++ w) ++ n ++ t') ++ w1) by (now rewrite <- !app_assoc). now constructor.
  - destruct (Z.eq_dec c 44) as [->|Hc].
    + intros H. apply IH in H. destruct H as (ps & H). exists ((n :: q) :: ps).
      replace (w0 ++ w ++ n ++ t' ++ w1 ++ 44 :: v) with (((w0 ++ w) ++ n ++ t') ++ w1 ++ 44 :: v) by (now rewrite <- !app_assoc). now constructor.
    + intros H. exfalso. revert H. destruct c as [|c|c]; try discriminate. do 6 (destruct c as [c|c|]; try discriminate). congruence.
Qed.
Lemma select_loop_err f : forall d s e, (length s < f)%nat -> select_loop f d s = Err e -> e = ValueError.
Proof.
  induction f as [|f IH]; intros d s e L; [inversion L|]. cbn [OdUri.select_loop].
  pose proof (wsp_len s) as L0.
  destruct (star_or_ident (wsp s)) as [[n t]|] eqn:E; [|intros [= <-]; now apply star_err in E].
  apply star_elim in E. destruct E as (w & Hw & Hn & E). cbn [bind]. apply sname_len in Hn. rewrite E, !app_length in L0.
  destruct (select_path _ n t) as [[q u]|e'] eqn:P; cbn [bind].
  - apply select_path_elim in P. destruct P as (t' & R & ->). rewrite app_length in L0. pose proof (wsp_len u) as L1.
    destruct (wsp u) as [|c v]; [discriminate|]. destruct (Z.eq_dec c 44) as [->|Hc].
    + apply IH. cbn in L1. lia.
    + destruct c as [|c|c]; try congruence. do 6 (destruct c as [c|c|]; try congruence).
  - intros [= ->]. eapply select_path_err; [|exact P]; lia.
Qed.
Lemma select_text_paths ps t : select_text start id ps t -> ps <> [] /\ Forall (fun p => p <> []) ps.
Proof.
  induction 1 as [p t w Hp Hw|p t w ps u Hp Hw Hps IH]; (split; [discriminate|]); apply item_text_rest in Hp;
    destruct Hp as (n & p' & w' & t' & -> & _); constructor; try discriminate; [constructor|apply IH].
Qed.

(** ** Both *)
Theorem select_reads ps t : select_text start id ps t -> exists d, ParseSelectOption start id t = Ok d /\ tidy d /\ holds_just d ps.
Proof.
  intros H. eexists. split; [apply (select_loop_read ps t H); lia|]. apply add_all_nil. now apply select_text_paths in H.
Qed.
Theorem select_refuses t : (forall ps, ~ select_text start id ps t) -> ParseSelectOption start id t = Err ValueError.
Proof.
  intros H. unfold ParseSelectOption. destruct (select_loop _ [] t) as [d|e] eqn:E.
  - apply select_loop_elim in E. destruct E as (ps & E). destruct (H ps E).
  - apply select_loop_err in E; [now subst|lia].
Qed.
End Read.
