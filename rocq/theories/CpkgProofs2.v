(** Unpacking an archive. *)
From Verif Require Import Py.
From Verif Require Import Cpkg CpkgSpec CpkgProofs.

Lemma place_eqb_eq p q : place_eqb p q = true <-> p = q.
Proof. unfold place_eqb. destruct (list_eq_dec str_eq_dec p q); split; congruence. Qed.
Lemma put_same f p n : put f p n p = Some n.
Proof. unfold put. assert (place_eqb p p = true) as -> by now apply place_eqb_eq. reflexivity. Qed.
Lemma put_other f p n q : p <> q -> put f p n q = f q.
Proof.
  intros H. unfold put. destruct (place_eqb p q) eqn:E; [|reflexivity].
  apply place_eqb_eq in E. congruence.
Qed.

(** [f'] is [f] with more things in the directory at d *)
Definition extends (d : list str) (f f' : filesys) : Prop :=
  (forall p, ~ within d p -> f' p = f p) /\
  (forall p n, f p = Some n -> f' p = Some n).

Lemma extends_refl d f : extends d f f.
Proof. split; auto. Qed.
Lemma extends_trans d f g h : extends d f g -> extends d g h -> extends d f h.
Proof.
  intros [A B] [C D]. split.
  - intros p H. rewrite C, A; auto.
  - intros p n H. auto.
Qed.
Lemma extends_put d f q n : f (d ++ q) = None -> extends d f (put f (d ++ q) n).
Proof.
  intros H. split.
  - intros p Hp. apply put_other. intros <-. apply Hp. now exists q.
  - intros p m Hp. rewrite put_other; [exact Hp|]. intros <-. congruence.
Qed.

(** ** Where the segments lead *)

Lemma removelast_app_names (d q : list str) : q <> [] -> removelast (d ++ q) = d ++ removelast q.
Proof. intros H. now apply removelast_app. Qed.

Lemma hop_go_some (d q : list str) s q' : go q s = Some q' -> hop (d ++ q) s = d ++ q'.
Proof.
  unfold go, hop. destruct (str_eqb s (lit "") || str_eqb s (lit ".")); [now intros [= <-]|].
  destruct (str_eqb s (lit "..")).
  - destruct q as [|a q]; [discriminate|]. intros [= <-]. now rewrite removelast_app_names.
  - intros [= <-]. now rewrite app_assoc.
Qed.

Lemma hop_go_none (d q : list str) s : d <> [] -> go q s = None ->
  forall r, hop (d ++ q) s <> d ++ r.
Proof.
  intros Hd. unfold go, hop. destruct (str_eqb s (lit "") || str_eqb s (lit ".")); [discriminate|].
  destruct (str_eqb s (lit "..")); [|discriminate].
  destruct q as [|a q]; [|discriminate]. intros _ r. rewrite app_nil_r.
  destruct (exists_last Hd) as (d' & n & ->). rewrite removelast_last. intros E.
  apply (f_equal (@length str)) in E. rewrite !app_length in E. cbn in E. lia.
Qed.

Lemma trail_fun q segs l : trail q segs l -> forall l', trail q segs l' -> l = l'.
Proof.
  induction 1; intros l' H'; inversion H'; subst; [reflexivity|].
  match goal with H1 : go q seg = Some _, H2 : go q seg = Some _ |- _ =>
    rewrite H1 in H2; injection H2 as <- end.
  f_equal. auto.
Qed.

Lemma describes_fun e ds q ds' q' : describes e ds q -> describes e ds' q' -> ds = ds' /\ q = q'.
Proof.
  intros H H'. pose proof (trail_fun _ _ _ H _ H') as E. now apply app_inj_tail in E.
Qed.

Section Unpack.
  Variable utf8 : str -> bool.
  Variable denied : list str -> bool.
  Variable d : list str.
  Hypothesis Hd : Forall entry_name d.
  Hypothesis Hne : d <> [].
  Notation dp := (absp d).
  Notation walk := (walk utf8 denied dp).

  Lemma isdir_dir f cs : Forall entry_name cs -> isdir f (absp cs) = true <-> f cs = Some Dir.
  Proof.
    intros H. unfold isdir. rewrite place_absp by exact H.
    destruct (f cs) as [[|]|]; split; congruence.
  Qed.
  Lemma exists_some f cs : Forall entry_name cs ->
    exists_ f (absp cs) = match f cs with Some _ => true | None => false end.
  Proof. intros H. unfold exists_. now rewrite place_absp. Qed.

  Lemma mkdir_extends f q f' r : Forall entry_name (d ++ q) ->
    mkdir denied f (absp (d ++ q)) = (f', r) ->
    extends d f f' /\
    (r = Done tt -> f (d ++ q) = None /\ f' = put f (d ++ q) Dir).
  Proof.
    intros H. unfold mkdir. rewrite exists_some by exact H. rewrite place_absp by exact H.
    destruct (f (d ++ q)) eqn:E; cbn [orb].
    - intros [= <- <-]. split; [apply extends_refl|discriminate].
    - destruct (negb _ || denied _); intros [= <- <-].
      + split; [apply extends_refl|discriminate].
      + split; [now apply extends_put|auto].
  Qed.

  (** the first lines of a turn of [walk] *)
  Lemma ready_extends f q f' r : Forall entry_name (d ++ q) ->
    (if isdir f (absp (d ++ q)) then (f, Done tt) else mkdir denied f (absp (d ++ q))) = (f', r) ->
    extends d f f' /\
    (r = Done tt -> f' (d ++ q) = Some Dir /\
       forall y n, f' y = Some n -> f y = Some n \/ (n = Dir /\ y = d ++ q)).
  Proof.
    intros H. destruct (isdir f (absp (d ++ q))) eqn:E.
    - intros [= <- <-]. split; [apply extends_refl|]. intros _. split; [|auto].
      now apply isdir_dir.
    - intros M. apply mkdir_extends in M as [X M]; [|exact H]. split; [exact X|].
      intros R. destruct (M R) as [N ->]. split; [apply put_same|].
      intros y n Hy. destruct (names_dec (d ++ q) y) as [<-|Ny].
      + rewrite put_same in Hy. injection Hy as <-. now right.
      + rewrite put_other in Hy by exact Ny. now left.
  Qed.

  Lemma walk_spec uni segs : forall f q f' r,
    Forall entry_name (d ++ q) -> Forall noslash segs ->
    walk uni f (absp (d ++ q)) segs = (f', r) ->
    extends d f f' /\
    (forall path, r = Done path -> exists dirs q',
       trail q segs (dirs ++ [q']) /\ path = absp (d ++ q') /\ Forall entry_name (d ++ q') /\
       (forall x, In x dirs -> f' (d ++ x) = Some Dir) /\
       (forall y n, f' y = Some n ->
          f y = Some n \/ (n = Dir /\ exists x, In x dirs /\ y = d ++ x))).
  Proof.
    induction segs as [|s segs IH]; intros f q f' r H Hs; cbn [Cpkg.walk].
    - intros [= <- <-]. split; [apply extends_refl|]. intros path [= <-].
      exists [], q. cbn [app]. split; [constructor|]. repeat split; auto. intros x [].
    - inversion_clear Hs as [|? ? Hs1 Hs2].
      destruct (if isdir f (absp (d ++ q)) then _ else _) as [f1 r1] eqn:R.
      apply ready_extends in R as [X R]; [|exact H].
      destruct r1 as [u|e]; [destruct u|intros [= <- <-]; split; [exact X|discriminate]].
      destruct (R eq_refl) as [D N]. clear R.
      destruct uni; [intros [= <- <-]; split; [exact X|discriminate]|].
      destruct (utf8 s); cbn [negb]; [|intros [= <- <-]; split; [exact X|discriminate]].
      rewrite normpath_join by auto.
      pose proof (hop_names _ _ H Hs1) as Hh.
      destruct (go q s) as [q'|] eqn:G.
      + pose proof (hop_go_some d _ _ _ G) as E. rewrite E in *.
        rewrite PackagePath_in by exact Hh.
        intros W. apply IH in W as [Y W]; auto. split; [eapply extends_trans; eauto|].
        intros path Hp. destruct (W path Hp) as (dirs & q2 & T & P & F & A & B).
        exists (q :: dirs), q2. cbn [app]. split; [econstructor; eauto|].
        split; [exact P|]. split; [exact F|]. split.
        * intros x [<-|Hx]; [|now apply A]. apply Y. exact D.
        * intros y n Hy. destruct (B y n Hy) as [Hy'|(-> & x & Hx & ->)].
          -- destruct (N y n Hy') as [|[-> ->]]; [now left|].
             right. split; [reflexivity|]. exists q. split; [now left|reflexivity].
          -- right. split; [reflexivity|]. exists x. split; [now right|reflexivity].
      + rewrite PackagePath_out; auto.
        * intros [= <- <-]. split; [exact X|discriminate].
        * now apply hop_go_none.
  Qed.

  Lemma open_extends f q f' r : Forall entry_name (d ++ q) -> f (d ++ q) = None ->
    open_wb denied f (absp (d ++ q)) = (f', r) ->
    extends d f f' /\ (r = Done tt -> f' = put f (d ++ q) (File [])).
  Proof.
    intros H N. unfold open_wb. rewrite place_absp by exact H.
    destruct (_ || _ || _); intros [= <- <-].
    - split; [apply extends_refl|discriminate].
    - split; [now apply extends_put|reflexivity].
  Qed.

  (** one entry *)
  Lemma entry_spec z e f f' r : unpack_entry utf8 denied dp z f e = (f', r) ->
    extends d f f' /\
    (r = Done tt -> exists dirs q,
       describes e dirs q /\
       (forall x, In x dirs -> f' (d ++ x) = Some Dir) /\
       ((f' (d ++ q) = Some Dir /\ z_size e <= 0) \/
        (exists data, read_entry z (z_name e) = Some data /\
           f (d ++ q) = None /\ f' (d ++ q) = Some (File data))) /\
       (forall y n, f' y = Some n ->
          f y = Some n \/ (n = Dir /\ exists x, In x dirs /\ y = d ++ x) \/
          (y = d ++ q /\ exists data, n = File data /\ read_entry z (z_name e) = Some data))).
  Proof.
    unfold unpack_entry.
    destruct (walk (z_unicode e) f dp (split_on slash (z_name e))) as [f1 r1] eqn:W.
    pose proof (walk_spec (z_unicode e) (split_on slash (z_name e)) f [] f1 r1) as S.
    rewrite app_nil_r in S.
    destruct (S Hd (split_on_segments _ _) W) as [X P]; clear S.
    destruct r1 as [path|x]; [|intros [= <- <-]; split; [exact X|discriminate]].
    destruct (P path eq_refl) as (dirs & q & T & -> & F & A & B); clear P.
    destruct (isdir f1 (absp (d ++ q))) eqn:I.
    - apply isdir_dir in I; [|exact F].
      destruct (z_size e >? 0) eqn:Z; intros [= <- <-]; (split; [exact X|]); [discriminate|].
      intros _. exists dirs, q. split; [exact T|]. split; [exact A|]. split; [left; split; [exact I|lia]|].
      intros y n Hy. destruct (B y n Hy); auto.
    - rewrite exists_some by exact F. destruct (f1 (d ++ q)) eqn:N.
      + intros [= <- <-]. split; [exact X|discriminate].
      + destruct (open_wb denied f1 (absp (d ++ q))) as [f2 r2] eqn:O.
        apply open_extends in O as [Y O]; auto.
        destruct r2 as [u|x]; [destruct u|intros [= <- <-]; split; [eapply extends_trans; eauto|discriminate]].
        rewrite (O eq_refl) in *. clear O.
        destruct (read_entry z (z_name e)) as [data|] eqn:Rd;
          intros [= <- <-]; [|split; [eapply extends_trans; eauto|discriminate]].
        rewrite place_absp by exact F.
        assert (E : extends d f1 (put (put f1 (d ++ q) (File [])) (d ++ q) (File data))).
        { split.
          - intros p Hp. rewrite !put_other; auto; intros <-; apply Hp; now exists q.
          - intros p m Hp. rewrite !put_other; auto; intros <-; congruence. }
        split; [eapply extends_trans; eauto|]. intros _. exists dirs, q.
        split; [exact T|]. split; [|split].
        * intros x Hx. apply E. now apply A.
        * right. exists data. split; [reflexivity|]. split; [|apply put_same].
          destruct (f (d ++ q)) eqn:Q; [|reflexivity]. apply X in Q. congruence.
        * intros y n Hy. destruct (names_dec (d ++ q) y) as [<-|Ny].
          -- rewrite put_same in Hy. injection Hy as <-. right. right. split; [reflexivity|]. now exists data.
          -- rewrite !put_other in Hy by exact Ny. destruct (B y n Hy); auto.
  Qed.

  (** all entries *)
  Lemma entries_extends z l : forall f f' r,
    unpack_entries utf8 denied dp z f l = (f', r) -> extends d f f'.
  Proof.
    induction l as [|e l IH]; intros f f' r; cbn [unpack_entries].
    - intros [= <- <-]. apply extends_refl.
    - destruct (unpack_entry utf8 denied dp z f e) as [f1 r1] eqn:E.
      apply entry_spec in E as [X _]. destruct r1.
      + intros H. eapply extends_trans; eauto.
      + intros [= <- <-]. exact X.
  Qed.

  Lemma entries_app z l1 l2 f f' : unpack_entries utf8 denied dp z f (l1 ++ l2) = (f', Done tt) ->
    exists g, unpack_entries utf8 denied dp z f l1 = (g, Done tt) /\
              unpack_entries utf8 denied dp z g l2 = (f', Done tt).
  Proof.
    revert f. induction l1 as [|e l1 IH]; intros f H.
    - now exists f.
    - cbn [app unpack_entries] in *. destruct (unpack_entry utf8 denied dp z f e) as [f1 [u|x]].
      + destruct u. now apply IH.
      + discriminate.
  Qed.

  Lemma entries_one z e l f f' : unpack_entries utf8 denied dp z f (e :: l) = (f', Done tt) ->
    exists g, unpack_entry utf8 denied dp z f e = (g, Done tt) /\
              unpack_entries utf8 denied dp z g l = (f', Done tt).
  Proof.
    cbn [unpack_entries]. destruct (unpack_entry utf8 denied dp z f e) as [f1 [u|x]]; [|discriminate].
    destruct u. now exists f1.
  Qed.

  (** two entries for one place: a directory *)
  Lemma entries_twice z l1 e1 l2 e2 l3 f f' ds1 ds2 q :
    unpack_entries utf8 denied dp z f (l1 ++ e1 :: l2 ++ e2 :: l3) = (f', Done tt) ->
    describes e1 ds1 q -> describes e2 ds2 q -> f' (d ++ q) = Some Dir.
  Proof.
    intros H D1 D2. apply entries_app in H as (g1 & _ & H).
    apply entries_one in H as (g2 & E1 & H). apply entries_app in H as (g3 & H2 & H).
    apply entries_one in H as (g4 & E2 & H).
    apply entries_extends in H, H2.
    apply entry_spec in E1 as [_ E1]. destruct (E1 eq_refl) as (ds & q1 & T1 & _ & C1 & _).
    destruct (describes_fun _ _ _ _ _ D1 T1) as [_ <-].
    apply entry_spec in E2 as [X2 E2]. destruct (E2 eq_refl) as (ds' & q2 & T2 & _ & C2 & _).
    destruct (describes_fun _ _ _ _ _ D2 T2) as [_ <-].
    destruct C2 as [[C2 _]|(data & _ & N & _)].
    - now apply H.
    - exfalso. destruct C1 as [[C1 _]|(data' & _ & _ & C1)]; apply H2 in C1; congruence.
  Qed.

  Lemma find_rev_split (P : entry -> bool) l e :
    find P (rev l) = Some e -> exists l1 l2, l = l1 ++ e :: l2 /\ P e = true.
  Proof.
    intros H. apply find_some in H as [Hi Hp]. apply in_rev in Hi.
    apply in_split in Hi as (l1 & l2 & ->). now exists l1, l2.
  Qed.

  (** the data read for a file is that of its entry *)
  Lemma read_own z l1 e l2 ds q f f' data : z = l1 ++ e :: l2 ->
    unpack_entries utf8 denied dp z f z = (f', Done tt) -> describes e ds q ->
    f' (d ++ q) = Some (File data) -> read_entry z (z_name e) = z_data e.
  Proof.
    intros E H D Hf. unfold read_entry.
    assert (forall e', In e' l2 -> str_eqb (z_name e') (z_name e) = false) as N2.
    { intros e' Hi. apply not_true_iff_false. intros Hn. apply str_eqb_eq in Hn.
      apply in_split in Hi as (a & b & ->). rewrite E in H at 2.
      assert (D' : describes e' ds q) by (unfold describes; now rewrite Hn).
      pose proof (entries_twice _ _ _ _ _ _ _ _ _ _ _ H D D'). congruence. }
    rewrite E, rev_app_distr. cbn [rev]. rewrite <- app_assoc. cbn [app].
    assert (G : forall m r, (forall x, In x m -> str_eqb (z_name x) (z_name e) = false) ->
              find (fun x => str_eqb (z_name x) (z_name e)) (m ++ e :: r) = Some e).
    { induction m as [|x m IH]; intros r Hm; cbn [app find].
      - now rewrite str_eqb_refl.
      - rewrite Hm by now left. apply IH. intros; apply Hm; now right. }
    rewrite G; [reflexivity|]. intros x Hx. apply N2. now apply in_rev.
  Qed.

  Lemma entries_each z l : forall f f', unpack_entries utf8 denied dp z f l = (f', Done tt) ->
    forall e, In e l -> exists ds q, describes e ds q /\
      (forall x, In x ds -> f' (d ++ x) = Some Dir) /\
      ((f' (d ++ q) = Some Dir /\ z_size e <= 0) \/
       exists data, read_entry z (z_name e) = Some data /\ f' (d ++ q) = Some (File data)).
  Proof.
    intros f f' H e Hi. apply in_split in Hi as (a & b & ->).
    apply entries_app in H as (g & _ & H). apply entries_one in H as (g2 & E & H).
    apply entries_extends in H. apply entry_spec in E as [_ E].
    destruct (E eq_refl) as (ds & q & T & A & C & _). exists ds, q. split; [exact T|]. split.
    - intros x Hx. apply H. now apply A.
    - destruct C as [[C S]|(data & R & _ & C)]; apply H in C; [now left|right; now exists data].
  Qed.

  Lemma entries_only z l : forall f f', unpack_entries utf8 denied dp z f l = (f', Done tt) ->
    forall y n, f' y = Some n -> f y = Some n \/
      exists e ds q, In e l /\ describes e ds q /\
        ((n = Dir /\ exists x, In x ds /\ y = d ++ x) \/
         (y = d ++ q /\ exists data, n = File data /\ read_entry z (z_name e) = Some data)).
  Proof.
    induction l as [|e l IH]; intros f f' H y n Hy.
    - cbn in H. injection H as <-. now left.
    - apply entries_one in H as (g & E & H). apply entry_spec in E as [_ E].
      destruct (E eq_refl) as (ds & q & T & _ & _ & B).
      destruct (IH _ _ H y n Hy) as [Hg|(e' & ds' & q' & Hi & D & C)].
      + destruct (B y n Hg) as [|C]; [now left|]. right. exists e, ds, q.
        split; [now left|]. split; [exact T|exact C].
      + right. exists e', ds', q'. split; [now right|]. now split.
  Qed.
End Unpack.
