(** Proofs about SqlExpr.v: tokens, and reading. *)
From Coq Require Import Lia Arith.
From Verif Require Import Py Iso Dec OdExpr OdEval OdEvalSpec SqlExpr SqlExprSpec.
Open Scope Z_scope.
Open Scope list_scope.

(** ** Tokens *)
Lemma lex_run_app st a b :
  lex_run st (a ++ b) = (fst (lex_run st a) ++ fst (lex_run (snd (lex_run st a)) b), snd (lex_run (snd (lex_run st a)) b)).
Proof.
  revert st. induction a as [|c a IH]; intros st; cbn [app lex_run fst snd].
  - now destruct (lex_run st b).
  - destruct (lex_step st c) as [x st1]. rewrite IH.
    destruct (lex_run st1 a) as [y st2]. cbn [fst snd]. destruct (lex_run st2 b) as [z st3]. cbn [fst snd].
    now rewrite app_assoc.
Qed.
(** the text does not end inside a quotation *)
Definition closed (s : str) : Prop :=
  match snd (lex_run L0 s) with LId _ | LStr _ => False | _ => True end.
Definition delim (c : Z) : Prop := In c [32; 40; 41; 44; 46].
Definition dtok (c : Z) : list tok := fst (start c).
Lemma delim_step st c : delim c -> match st with LId _ | LStr _ => False | _ => True end ->
  lex_step st c = (lex_end st ++ dtok c, L0).
Proof.
  intros D. unfold delim in D. cbn [In] in D.
  destruct D as [<-|[<-|[<-|[<-|[<-|[]]]]]]; destruct st; intros C; try contradiction; reflexivity.
Qed.
Lemma lex_cut s c r : closed s -> delim c -> lex (s ++ c :: r) = lex s ++ dtok c ++ lex r.
Proof.
  intros C D. unfold lex. rewrite lex_run_app. unfold closed in C.
  destruct (lex_run L0 s) as [a st]. cbn [fst snd] in *. cbn [lex_run].
  rewrite (delim_step st c D C). destruct (lex_run L0 r) as [b st2]. cbn [fst snd].
  now rewrite <- !app_assoc.
Qed.
Lemma closed_cut s c r : closed s -> delim c -> closed r -> closed (s ++ c :: r).
Proof.
  intros C D R. unfold closed in *. rewrite lex_run_app.
  destruct (lex_run L0 s) as [a st]. cbn [fst snd] in *. cbn [lex_run].
  rewrite (delim_step st c D C). destruct (lex_run L0 r) as [b st2]. exact R.
Qed.
Lemma closed_nil : closed []. Proof. exact I. Qed.
Lemma lex_nil : lex [] = []. Proof. reflexivity. Qed.

(** *** Names *)
Lemma run_id acc n r : ~ In 34 n -> lex_run (LId acc) (n ++ r) = lex_run (LId (acc ++ n)) r.
Proof.
  revert acc. induction n as [|c n IH]; intros acc N; cbn [app].
  - now rewrite app_nil_r.
  - cbn [lex_run lex_step]. destruct (Z.eqb_spec c 34) as [->|_]; [exfalso; apply N; now left|].
    rewrite IH by (intros H; apply N; now right). rewrite <- app_assoc. cbn [app].
    destruct (lex_run (LId (acc ++ c :: n)) r); reflexivity.
Qed.
Lemma run_quoted c n : quoted_as c n -> lex_run L0 c = ([], LIdEnd n).
Proof.
  intros [-> N]. cbn [app lex_run]. change (lex_step L0 34) with (@nil tok, LId []). cbv iota beta.
  rewrite run_id by exact N. reflexivity.
Qed.
Lemma closed_quoted c n : quoted_as c n -> closed c.
Proof. intros H. unfold closed. now rewrite (run_quoted c n H). Qed.
Lemma lex_quoted c n : quoted_as c n -> lex c = [KId n].
Proof. intros H. unfold lex. now rewrite (run_quoted c n H). Qed.

(** ** Reading *)
Section Read.
Variable strength : bop -> nat.
Hypothesis usual_strength : usual strength.
Definition op_tok (o : bop) : tok :=
  match o with
  | BOr => KWord (lit "OR") | BAnd => KWord (lit "AND") | BLike => KWord (lit "LIKE") | BEq => KOp (lit "=") | BNe => KOp (lit "<>")
  | BLt => KOp (lit "<") | BGt => KOp (lit ">") | BLe => KOp (lit "<=") | BGe => KOp (lit ">=") | BPlus => KOp (lit "+")
  | BMinus => KOp (lit "-") | BTimes => KOp (lit "*") | BDivide => KOp (lit "/") | BConcat => KOp (lit "||")
  end.
Lemma as_op_tok o : as_op (op_tok o) = Some o.
Proof. destruct o; reflexivity. Qed.
Notation rd_expr := (r_expr strength).
Notation rd_loop := (r_loop strength).
Notation rd_atom := (r_atom strength).
Lemma expr_eq f p k ts : rd_expr (S f) p k ts = match rd_atom f k ts with Some (a, k, ts) => rd_loop f p a k ts | None => None end.
Proof. reflexivity. Qed.
Lemma loop_eq f p a k t ts : rd_loop (S f) p a k (t :: ts) =
  match as_op t with
  | Some o => if (p <=? strength o)%nat then
                match rd_expr f (S (strength o)) k ts with Some (b, k, ts) => rd_loop f p (SBin o a b) k ts | None => None end
              else Some (a, k, t :: ts)
  | None => Some (a, k, t :: ts)
  end.
Proof. reflexivity. Qed.
Lemma open_eq f k ts : rd_atom (S f) k (KOpen :: ts) = match rd_expr f 0 k ts with Some (a, k, KClose :: ts) => Some (a, k, ts) | _ => None end.
Proof. reflexivity. Qed.
Lemma extract_eq f k u ts : rd_atom (S f) k (KWord (lit "EXTRACT") :: KOpen :: KWord u :: KWord (lit "FROM") :: ts) =
  match rd_expr f 0 k ts with Some (a, k, KClose :: ts) => Some (SExtract u a, k, ts) | _ => None end.
Proof. reflexivity. Qed.
Lemma fun_eq f k w ts : str_eqb w (lit "EXTRACT") = false -> rd_atom (S f) k (KWord w :: KOpen :: ts) =
  match rd_expr f 0 k ts with
  | Some (a, k, KClose :: ts) => Some (SFun w a, k, ts)
  | Some (a, k, KComma :: ts) =>
      match rd_expr f 0 k ts with Some (b, k, KClose :: ts) => Some (SFun2 w a b, k, ts) | _ => None end
  | Some (a, k, v :: ts) =>
      if str_eqb w (lit "POSITION") && is_word "IN" v then
        match rd_expr f 0 k ts with Some (b, k, KClose :: ts) => Some (SPosition a b, k, ts) | _ => None end
      else if str_eqb w (lit "CAST") && is_word "AS" v then
        match ts with KWord t :: KClose :: ts => Some (SCast a t, k, ts) | _ => None end
      else None
  | _ => None
  end.
Proof.
  intros H.
  transitivity (if str_eqb w (lit "EXTRACT") then rd_atom (S f) k (KWord w :: KOpen :: ts) else rd_atom (S f) k (KWord w :: KOpen :: ts));
    [now destruct (str_eqb w (lit "EXTRACT"))|].
  rewrite H. cbn [r_atom]. rewrite H. reflexivity.
Qed.
Definition ok_left (o : bop) (h : option bop) : Prop :=
  match h with Some o1 => (strength o <= strength o1)%nat | None => True end.
Definition ok_right (o : bop) (h : option bop) : Prop :=
  match h with Some o1 => (strength o < strength o1)%nat \/ (o1 = o /\ assoc o) | None => True end.
(** the word of a function call that is read without special words *)
Definition plain_word (w : str) : Prop := w <> lit "EXTRACT".
Inductive shows : option bop -> nat -> sql -> list tok -> nat -> Prop :=
| Sh_col1 : forall k a, shows None k (SCol [a]) [KId a] k
| Sh_col2 : forall k a b, shows None k (SCol [a; b]) [KId a; KDot; KId b] k
| Sh_name : forall k w, shows None k (SName w) [KWord w] k
| Sh_mark : forall k, shows None k (SMark k) [KMark] (S k)
| Sh_str : forall k s, shows None k (SStr s) [KStr s] k
| Sh_br : forall h k t ts k', shows h k t ts k' -> shows None k t (KOpen :: ts ++ [KClose]) k'
| Sh_bin : forall o hl hr k a l k1 b r k2, shows hl k a l k1 -> shows hr k1 b r k2 -> ok_left o hl -> ok_right o hr ->
    shows (Some o) k (SBin o a b) (l ++ op_tok o :: r) k2
| Sh_fun : forall f h k a l k', plain_word f -> shows h k a l k' -> shows None k (SFun f a) (KWord f :: KOpen :: l ++ [KClose]) k'
| Sh_fun2 : forall f h h' k a l k1 b r k2, plain_word f -> shows h k a l k1 -> shows h' k1 b r k2 ->
    shows None k (SFun2 f a b) (KWord f :: KOpen :: l ++ KComma :: r ++ [KClose]) k2
| Sh_extract : forall f h k a l k', shows h k a l k' ->
    shows None k (SExtract f a) (KWord (lit "EXTRACT") :: KOpen :: KWord f :: KWord (lit "FROM") :: l ++ [KClose]) k'
| Sh_position : forall h h' k a l k1 b r k2, shows h k a l k1 -> shows h' k1 b r k2 ->
    shows None k (SPosition a b) (KWord (lit "POSITION") :: KOpen :: l ++ KWord (lit "IN") :: r ++ [KClose]) k2
| Sh_cast : forall f h k a l k', shows h k a l k' ->
    shows None k (SCast a f) (KWord (lit "CAST") :: KOpen :: l ++ [KWord (lit "AS"); KWord f; KClose]) k'.

(** what follows does not take the last operand *)
Definition follows (h : option bop) (rest : list tok) : Prop :=
  match rest, h with
  | t :: _, Some o => match as_op t with Some o2 => (strength o2 <= strength o)%nat | None => True end
  | _, _ => True
  end.
(** a word that is followed by a bracket would be read as a function *)
Definition not_open (rest : list tok) : Prop := match rest with KOpen :: _ | KDot :: _ => False | _ => True end.
Definition level (p : nat) (h : option bop) : Prop := match h with Some o => (p <= strength o)%nat | None => True end.
Definition reads_expr (h : option bop) (k : nat) (t : sql) (ts : list tok) (k' : nat) : Prop :=
  exists t', regroup t' t /\ forall p rest f R, level p h -> follows h rest -> not_open rest ->
    (3 * length (ts ++ rest) + 2 <= f)%nat ->
    (forall g, (3 * length rest + 1 <= g)%nat -> r_loop strength g p t' k' rest = R) ->
    r_expr strength f p k (ts ++ rest) = R.
Definition reads_right (h : option bop) (k : nat) (t : sql) (ts : list tok) (k' : nat) : Prop :=
  forall o a, ok_right o h -> exists t', regroup t' (SBin o a t) /\ forall p rest f R, (p <= strength o)%nat ->
    follows (Some o) rest -> not_open rest ->
    (3 * length (op_tok o :: ts ++ rest) + 1 <= f)%nat ->
    (forall g, (3 * length rest + 1 <= g)%nat -> r_loop strength g p t' k' rest = R) ->
    r_loop strength f p a k (op_tok o :: ts ++ rest) = R.

(** an expression that is followed by something that is not an operator *)
Definition stops (rest : list tok) : Prop := match rest with t :: _ => as_op t = None | [] => True end.
Lemma loop_stops g p t k rest : stops rest -> (1 <= g)%nat -> r_loop strength g p t k rest = Some (t, k, rest).
Proof. intros S G. destruct g as [|g]; [lia|]. destruct rest as [|x r]; [reflexivity|]. cbn [stops] in S. rewrite loop_eq. now rewrite S. Qed.
Lemma reads_all h k t ts k' : reads_expr h k t ts k' -> exists t', regroup t' t /\
  forall rest f, stops rest -> not_open rest -> (3 * length (ts ++ rest) + 2 <= f)%nat -> r_expr strength f 0 k (ts ++ rest) = Some (t', k', rest).
Proof.
  intros (t' & G & H). exists t'. split; [exact G|]. intros rest f S N F. apply H; auto.
  - destruct h; cbn [level]; lia || exact I.
  - destruct rest as [|x r]; [exact I|]. destruct h; [|exact I]. cbn [follows]. cbn [stops] in S. now rewrite S.
  - intros g Hg. apply loop_stops; [exact S|lia].
Qed.
(** an atom *)
Lemma atom_expr k t t' ts k' : regroup t' t ->
  (forall rest f, not_open rest -> (3 * length (ts ++ rest) + 1 <= f)%nat -> r_atom strength f k (ts ++ rest) = Some (t', k', rest)) ->
  (1 <= length ts)%nat ->
  reads_expr None k t ts k'.
Proof.
  intros G H L. exists t'. split; [exact G|]. intros p rest f R _ _ N F C.
  destruct f as [|f]; [lia|]. rewrite expr_eq. rewrite H by (auto; lia). apply C. rewrite app_length in F. lia.
Qed.
Lemma right_of_expr h k t ts k' : reads_expr h k t ts k' -> forall o a, match h with Some o1 => (strength o < strength o1)%nat | None => True end ->
  exists t', regroup t' (SBin o a t) /\ forall p rest f R, (p <= strength o)%nat -> follows (Some o) rest -> not_open rest ->
    (3 * length (op_tok o :: ts ++ rest) + 1 <= f)%nat ->
    (forall g, (3 * length rest + 1 <= g)%nat -> r_loop strength g p t' k' rest = R) ->
    r_loop strength f p a k (op_tok o :: ts ++ rest) = R.
Proof.
  intros (t' & G & H) o a S. exists (SBin o a t'). split; [now apply G_bin; [apply G_refl|]|].
  intros p rest f R P F N L C. cbn [length] in L. destruct f as [|f]; [lia|]. rewrite loop_eq, as_op_tok.
  replace (p <=? strength o)%nat with true by (symmetry; apply Nat.leb_le; exact P).
  rewrite (H (Datatypes.S (strength o)) rest f (Some (t', k', rest))).
  - apply C. rewrite app_length in L. lia.
  - destruct h as [o1|]; cbn [level]; [lia|exact I].
  - destruct rest as [|x r]; [exact I|]. destruct h as [o1|]; [|exact I]. cbn [follows] in *.
    destruct (as_op x) as [o2|]; [lia|exact I].
  - exact N.
  - lia.
  - intros g Hg. destruct g as [|g]; [lia|]. destruct rest as [|x r]; [reflexivity|]. rewrite loop_eq. cbn [follows] in F.
    destruct (as_op x) as [o2|]; [|reflexivity]. now replace (Datatypes.S (strength o) <=? strength o2)%nat with false by (symmetry; apply Nat.leb_gt; lia).
Qed.
Lemma right_none k t ts k' : reads_expr None k t ts k' -> reads_right None k t ts k'.
Proof. intros H o a _. exact (right_of_expr None k t ts k' H o a I). Qed.

Lemma not_open_op o r : not_open (op_tok o :: r).
Proof. destruct o; exact I. Qed.
Lemma follows_none rest : follows None rest.
Proof. destruct rest; exact I. Qed.

Lemma reads h k t ts k' : shows h k t ts k' -> reads_expr h k t ts k' /\ reads_right h k t ts k'.
Proof.
  assert (Atom : forall k t ts k', reads_expr None k t ts k' -> reads_expr None k t ts k' /\ reads_right None k t ts k')
    by (intros; split; [assumption|now apply right_none]).
  induction 1 as [k a|k a b|k w|k|k s|h k t ts k' _ [A _]|o hl hr k a l k1 b r k2 _ [Al Bl] _ [Ar Br] OL OR
    |f h k a l k' PW _ [A _]|f h h' k a l k1 b r k2 PW _ [Al _] _ [Ar _]|f h k a l k' _ [A _]
    |h h' k a l k1 b r k2 _ [Al _] _ [Ar _]|f h k a l k' _ [A _]].
  - apply Atom, (atom_expr k _ (SCol [a])); [apply G_refl| |cbn; lia]. intros rest f N F. destruct f as [|f]; [cbn in F; lia|].
    cbn [app r_atom]. destruct rest as [|[] rest]; try reflexivity. contradiction N.
  - apply Atom, (atom_expr k _ (SCol [a; b])); [apply G_refl| |cbn; lia]. intros rest f N F. destruct f as [|f]; [cbn in F; lia|]. reflexivity.
  - apply Atom, (atom_expr k _ (SName w)); [apply G_refl| |cbn; lia]. intros rest f N F. destruct f as [|f]; [cbn in F; lia|].
    cbn [app r_atom]. destruct rest as [|[] rest]; try reflexivity. contradiction N.
  - apply Atom, (atom_expr k _ (SMark k)); [apply G_refl| |cbn; lia]. intros rest f N F. destruct f as [|f]; [cbn in F; lia|]. reflexivity.
  - apply Atom, (atom_expr k _ (SStr s)); [apply G_refl| |cbn; lia]. intros rest f N F. destruct f as [|f]; [cbn in F; lia|]. reflexivity.
  - destruct (reads_all _ _ _ _ _ A) as (t' & G & H).
    apply Atom, (atom_expr k _ t'); [exact G| |cbn; lia]. intros rest f N F. destruct f as [|f]; [cbn in F; lia|].
    cbn [app]. rewrite open_eq, <- app_assoc. cbn [app]. rewrite H; [reflexivity|reflexivity|exact I|].
    cbn [app length] in F. rewrite <- app_assoc in F. cbn [app] in F. lia.
  - assert (Left : exists t', regroup t' (SBin o a b) /\ forall p rest f R, (p <= strength o)%nat -> follows (Some o) rest -> not_open rest ->
        (3 * length ((l ++ op_tok o :: r) ++ rest) + 2 <= f)%nat ->
        (forall g, (3 * length rest + 1 <= g)%nat -> r_loop strength g p t' k2 rest = R) ->
        r_expr strength f p k ((l ++ op_tok o :: r) ++ rest) = R).
    { destruct Al as (a' & Ga & Ha). destruct (Br o a' OR) as (t' & Gt & Ht). exists t'. split.
      - eapply G_trans; [exact Gt|]. apply G_bin; [exact Ga|apply G_refl].
      - intros p rest f R P F N Hf C. rewrite <- app_assoc in *. cbn [app] in *. apply Ha.
        + destruct hl as [o1|]; cbn [level]; [cbn [ok_left] in OL; lia|exact I].
        + destruct hl as [o1|]; cbn [follows]; [|exact I]. rewrite as_op_tok. exact OL.
        + apply not_open_op.
        + exact Hf.
        + intros g Hg. apply Ht; auto. }
    split; [exact Left|].
    intros q c [Hq|[-> Aq]].
    + exact (right_of_expr (Some o) k (SBin o a b) (l ++ op_tok o :: r) k2 Left q c Hq).
    + assert (OLr : ok_right q hl).
      { destruct hl as [o1|]; [|exact I]. cbn [ok_right ok_left] in *. destruct (Nat.eq_dec (strength o1) (strength q)) as [E|E]; [|left; lia].
        right. split; [|exact Aq]. now apply (proj2 usual_strength). }
      destruct (Bl q c OLr) as (u & Gu & Hu). destruct (Br q u OR) as (w & Gw & Hw). exists w. split.
      * eapply G_trans; [exact Gw|]. eapply G_trans; [apply G_bin; [exact Gu|apply G_refl]|]. now apply G_assoc.
      * intros p rest f R P F N Hf C. rewrite <- app_assoc in *. cbn [app] in *.
        apply Hu; auto.
        -- cbn [follows]. rewrite as_op_tok. lia.
        -- apply not_open_op.
  - destruct (reads_all _ _ _ _ _ A) as (t' & G & H).
    apply Atom, (atom_expr k _ (SFun f t')); [now apply G_fun| |cbn; lia]. intros rest g N F. destruct g as [|g]; [cbn in F; lia|].
    cbn [app]. destruct (str_eqb f (lit "EXTRACT")) eqn:E; [apply str_eqb_eq in E; contradiction|]. rewrite fun_eq by exact E.
    rewrite <- app_assoc. cbn [app]. rewrite H; [reflexivity|reflexivity|exact I|].
    cbn [app length] in F. rewrite <- app_assoc in F. cbn [app] in F. lia.
  - destruct (reads_all _ _ _ _ _ Al) as (a' & Ga & Ha). destruct (reads_all _ _ _ _ _ Ar) as (b' & Gb & Hb).
    apply Atom, (atom_expr k _ (SFun2 f a' b')); [now apply G_fun2| |cbn; lia]. intros rest g N F. destruct g as [|g]; [cbn in F; lia|].
    cbn [app]. destruct (str_eqb f (lit "EXTRACT")) eqn:E; [apply str_eqb_eq in E; contradiction|]. rewrite fun_eq by exact E.
    cbn [app length] in F. rewrite <- app_assoc in *. cbn [app] in *. rewrite <- app_assoc in *. cbn [app] in *. rewrite app_length in F. cbn [length] in F.
    rewrite Ha; [|reflexivity|exact I|rewrite app_length; cbn [length]; lia].
    rewrite Hb; [reflexivity|reflexivity|exact I|lia].
  - destruct (reads_all _ _ _ _ _ A) as (t' & G & H).
    apply Atom, (atom_expr k _ (SExtract f t')); [now apply G_extract| |cbn; lia]. intros rest g N F. destruct g as [|g]; [cbn in F; lia|].
    cbn [app]. rewrite extract_eq.
    rewrite <- app_assoc. cbn [app]. rewrite H; [reflexivity|reflexivity|exact I|].
    cbn [app length] in F. rewrite <- app_assoc in F. cbn [app] in F. lia.
  - destruct (reads_all _ _ _ _ _ Al) as (a' & Ga & Ha). destruct (reads_all _ _ _ _ _ Ar) as (b' & Gb & Hb).
    apply Atom, (atom_expr k _ (SPosition a' b')); [now apply G_position| |cbn; lia]. intros rest g N F. destruct g as [|g]; [cbn in F; lia|].
    cbn [app]. rewrite fun_eq by reflexivity.
    cbn [app length] in F. rewrite <- app_assoc in *. cbn [app] in *. rewrite <- app_assoc in *. cbn [app] in *. rewrite app_length in F. cbn [length] in F.
    rewrite Ha; [|reflexivity|exact I|rewrite app_length; cbn [length]; lia].
    change (str_eqb (lit "POSITION") (lit "POSITION") && is_word "IN" (KWord (lit "IN"))) with true. cbv iota.
    rewrite Hb; [reflexivity|reflexivity|exact I|lia].
  - destruct (reads_all _ _ _ _ _ A) as (t' & G & H).
    apply Atom, (atom_expr k _ (SCast t' f)); [now apply G_cast| |cbn; lia]. intros rest g N F. destruct g as [|g]; [cbn in F; lia|].
    cbn [app]. rewrite fun_eq by reflexivity.
    rewrite <- app_assoc. cbn [app]. rewrite H; [reflexivity|reflexivity|exact I|].
    cbn [app length] in F. rewrite <- app_assoc in F. cbn [app] in F. lia.
Qed.
Lemma read_shows h t ts k' : shows h 0 t ts k' -> exists t', regroup t' t /\ read strength ts = Some t'.
Proof.
  intros S. destruct (reads_all _ _ _ _ _ (proj1 (reads _ _ _ _ _ S))) as (t' & G & H). exists t'. split; [exact G|].
  unfold read. specialize (H [] (3 * length ts + 2)%nat I I). rewrite app_nil_r in H. rewrite H by lia. reflexivity.
Qed.
End Read.
