(** Proofs about challenges: writing, reading, looking up. *)
From Coq Require Import Lia Zify.
From Verif Require Import Py Iso Dec XmlUtils Imscp HttpCore HttpParams HttpHeaders HttpConn HttpSpec HttpProofs HttpProofs2 HttpProofs4 HttpAuth HttpAuthSpec.
From Verif Require XsdProofs2.
Open Scope Z_scope.

(** ** The dictionary *)
Lemma sget_sset k v d k' : sget k' (sset k v d) = if str_eqb k' k then Some v else sget k' d.
Proof.
  induction d as [|[k1 v1] d IH]; cbn [sset sget]; [reflexivity|].
  destruct (str_eqb k k1) eqn:E; cbn [sget].
  - apply str_eqb_eq in E as ->. now destruct (str_eqb k' k1).
  - rewrite IH. destruct (str_eqb k' k1) eqn:E1; [|reflexivity]. apply str_eqb_eq in E1 as ->.
    destruct (str_eqb k1 k) eqn:E2; [|reflexivity]. apply str_eqb_eq in E2 as ->. now rewrite str_eqb_refl in E.
Qed.
Lemma sget_add d n v q k : sget k (add_param d (n, v, q)) =
  if str_eqb k n then Some v else
  if str_eqb k (lower n) then match sget k d with Some x => Some x | None => Some v end else sget k d.
Proof.
  unfold add_param, shas. rewrite sget_sset. destruct (str_eqb (lower n) n) eqn:L; cbn [negb].
  - apply str_eqb_eq in L. rewrite sget_sset, L. now destruct (str_eqb k n).
  - destruct (sget (lower n) d) as [x|] eqn:D; cbn [negb]; rewrite ?sget_sset.
    + destruct (str_eqb k n); [reflexivity|]. destruct (str_eqb k (lower n)) eqn:E; [|reflexivity]. apply str_eqb_eq in E as ->. now rewrite D.
    + destruct (str_eqb k (lower n)) eqn:E; [|now destruct (str_eqb k n)]. apply str_eqb_eq in E as ->. rewrite L, D. reflexivity.
Qed.
Lemma neq_eqb a b : str_eqb a b = false <-> a <> b.
Proof. rewrite <- not_true_iff_false, str_eqb_eq. reflexivity. Qed.

Lemma last_named_snoc l k v p : name_of p <> k -> last_named l k v -> last_named (l ++ [p]) k v.
Proof.
  intros N (a & b & q & -> & H). exists a, (b ++ [p]), q. split; [now rewrite <- app_assoc|].
  intros x X. apply in_app_iff in X as [X|[<-|[]]]; auto.
Qed.
Lemma not_named_snoc l k p : name_of p <> k -> ~ is_named l k -> ~ is_named (l ++ [p]) k.
Proof. intros N H (x & X & E). apply in_app_iff in X as [X|[<-|[]]]; [apply H; now exists x|contradiction]. Qed.
Definition like (l : list aparam) (k v : str) : Prop :=
  exists a b n q, l = a ++ (n, v, q) :: b /\ lower n = k /\ forall p, In p a -> lower (name_of p) <> k.
Lemma like_snoc l k v p : like l k v -> like (l ++ [p]) k v.
Proof. intros (a & b & n & q & -> & H1 & H2). exists a, (b ++ [p]), n, q. split; [now rewrite <- app_assoc|]. now split. Qed.
Lemma dict_spec l k :
  match sget k (fold_left add_param l []) with
  | Some v => last_named l k v \/ (~ is_named l k /\ like l k v)
  | None => forall p, In p l -> name_of p <> k /\ lower (name_of p) <> k
  end.
Proof.
  induction l as [|[[n v] q] l IH] using rev_ind; [cbn; tauto|].
  rewrite fold_left_app. cbn [fold_left]. rewrite sget_add.
  destruct (str_eqb k n) eqn:E1.
  { apply str_eqb_eq in E1 as ->. left. exists l, [], q. split; [reflexivity|easy]. }
  apply neq_eqb in E1. assert (N : name_of (n, v, q) <> k) by (cbn; congruence).
  destruct (sget k (fold_left add_param l [])) as [x|].
  - assert (G : last_named (l ++ [(n, v, q)]) k x \/ ~ is_named (l ++ [(n, v, q)]) k /\ like (l ++ [(n, v, q)]) k x).
    { destruct IH as [IH|[IH1 IH2]]; [left; now apply last_named_snoc|right]. split; [now apply not_named_snoc|now apply like_snoc]. }
    now destruct (str_eqb k (lower n)).
  - destruct (str_eqb k (lower n)) eqn:E2.
    + apply str_eqb_eq in E2 as ->. right. split.
      * apply not_named_snoc; [exact N|]. intros (p & P & Q). now apply IH in P.
      * exists l, [], n, q. split; [reflexivity|]. split; [reflexivity|]. intros p P. now apply IH.
    + apply neq_eqb in E2. intros p P. apply in_app_iff in P as [P|[<-|[]]]; [now apply IH|]. split; [exact N|]. intros F. apply E2. now rewrite <- F.
Qed.

Lemma shas_false k d : shas k d = false <-> sget k d = None.
Proof. unfold shas. now destruct (sget k d). Qed.
Lemma lower_realm : lower (lit "realm") = lit "realm". Proof. reflexivity. Qed.
Lemma last_named_In l k v : last_named l k v -> exists p, In p l /\ name_of p = k /\ value_of p = v.
Proof. intros (a & b & q & -> & _). exists (k, v, q). split; [rewrite in_app_iff; cbn; tauto|now split]. Qed.
Lemma has_realm l : shas (lit "realm") (fold_left add_param l []) = true <-> names_realm l.
Proof.
  pose proof (dict_spec l (lit "realm")) as D. unfold shas. destruct (sget (lit "realm") (fold_left add_param l [])) as [v|]; split; try easy.
  - intros _. destruct D as [D|[_ (a & b & n & q & -> & L & _)]].
    + apply last_named_In in D as (p & P & N & _). exists p. split; [exact P|]. now rewrite N.
    + exists (n, v, q). split; [rewrite in_app_iff; cbn; tauto|exact L].
  - intros (p & P & L). now apply D in P as [_ P].
Qed.
(** All parameters, and the dictionary of all *)
Lemma Challenge_params s l : all_params l (ch_params (Challenge s l)).
Proof.
  unfold Challenge, all_params. rewrite <- has_realm. destruct (shas (lit "realm") (fold_left add_param l [])); cbn [negb ch_params]; [now left|].
  right. split; [discriminate|reflexivity].
Qed.
Lemma Challenge_dict s l : forall k, sget k (ch_dict (Challenge s l)) = sget k (fold_left add_param (ch_params (Challenge s l)) []).
Proof.
  intros k. unfold Challenge. destruct (shas (lit "realm") (fold_left add_param l [])) eqn:E; cbn [negb ch_params ch_dict]; [reflexivity|].
  rewrite fold_left_app. cbn [fold_left]. rewrite sget_add, sget_sset, lower_realm. now destruct (str_eqb k (lit "realm")).
Qed.
Lemma Challenge_full s l : names_realm (ch_params (Challenge s l)).
Proof.
  destruct (Challenge_params s l) as [[H ->]|[H ->]]; [exact H|]. exists default_realm. split; [rewrite in_app_iff; cbn; tauto|reflexivity].
Qed.

Lemma getitem_spec s l k : let full := ch_params (Challenge s l) in
  (forall v, getitem (Challenge s l) k = Ok v -> value_for full k v) /\
  (forall e, getitem (Challenge s l) k = Err e -> e = KeyError /\ forall p, In p full -> lower (name_of p) <> lower k) /\
  (contains (Challenge s l) k = true <-> exists p, In p full /\ lower (name_of p) = lower k).
Proof.
  intros full. assert (G : forall k, match sget k (ch_dict (Challenge s l)) with
    | Some v => last_named full k v \/ (~ is_named full k /\ like full k v)
    | None => forall p, In p full -> name_of p <> k /\ lower (name_of p) <> k end).
  { intros k'. rewrite Challenge_dict. apply dict_spec. }
  assert (L : forall v, last_named full k v -> exists p, In p full /\ lower (name_of p) = lower k).
  { intros v H. apply last_named_In in H as (p & P & <- & _). eauto. }
  assert (K : forall k' v, like full k' v -> exists p, In p full /\ lower (name_of p) = k' /\ lower k' = k').
  { intros k' v (a & b & n & q & -> & <- & _). exists (n, v, q). split; [rewrite in_app_iff; cbn; tauto|]. split; [reflexivity|]. apply XsdProofs2.lower_lower. }
  pose proof (G k) as G1. pose proof (G (lower k)) as G2. unfold getitem, contains, shas.
  destruct (sget k (ch_dict (Challenge s l))) as [v|].
  - split; [|split; [easy|]].
    + intros ? [= <-]. unfold value_for. destruct G1 as [H|[H1 H2]]; [now left|]. right. right. split; [exact H1|].
      pose proof H2 as H3. apply K in H2 as (p & P & E & El). rewrite El. split; [exact H1|].
      destruct H3 as (a & b & n & q & F & F1 & F2). exists a, b, n, q. split; [exact F|]. rewrite El. now split.
    + split; [intros _|reflexivity]. destruct G1 as [H|[_ H]]; [now apply L in H|]. apply K in H as (p & P & E & El). exists p. split; [exact P|congruence].
  - cbn [orb]. assert (N : ~ is_named full k) by (intros (p & P & E); now apply G1 in P).
    destruct (sget (lower k) (ch_dict (Challenge s l))) as [v|].
    + split; [|split; [easy|]].
      * intros ? [= <-]. unfold value_for. right. destruct G2 as [H|[H1 H2]]; [now left|]. right. split; [exact N|]. split; [exact H1|].
        destruct H2 as (a & b & n & q & F & F1 & F2). exists a, b, n, q. split; [exact F|]. now split.
      * split; [intros _|reflexivity]. destruct G2 as [H|[_ H]].
        -- apply last_named_In in H as (p & P & E & _). exists p. split; [exact P|]. rewrite E. apply XsdProofs2.lower_lower.
        -- apply K in H as (p & P & E & El). now exists p.
    + split; [easy|]. split; [|].
      * intros e [= <-]. split; [reflexivity|]. intros p P. now apply G2.
      * split; [discriminate|]. intros (p & P & E). now apply G2 in P as [_ P].
Qed.
Lemma value_for_one l k v v' : value_for l k v -> value_for l k v' -> v = v'.
Proof.
  assert (A : forall k v v', last_named l k v -> last_named l k v' -> v = v').
  { clear. intros k v v' (a & b & q & E & H) (a' & b' & q' & E' & H'). rewrite E in E'. clear E. revert a' E'.
    induction a as [|x a IH]; intros [|x' a'] E'; cbn [app] in E'; injection E'; try congruence.
    - intros E1 E2. exfalso. subst. apply (H (k, v', q')); [rewrite in_app_iff; cbn; tauto|reflexivity].
    - intros E1 E2. exfalso. subst. apply (H' (k, v, q)); [rewrite in_app_iff; cbn; tauto|reflexivity].
    - intros E1 _. now apply (IH a'). }
  assert (B : forall k v, last_named l k v -> is_named l k).
  { clear. intros k v H. apply last_named_In in H as (p & P & E & _). now exists p. }
  intros [H|[[N H]|(N & N' & H)]] [H'|[[M H']|(M & M' & H')]]; try (apply B in H; contradiction); try (apply B in H'; contradiction);
    try (now apply (A k)); try (now apply (A (lower k))).
  clear - H H'. destruct H as (a & b & n & q & E & H1 & H2), H' as (a' & b' & n' & q' & E' & H1' & H2'). rewrite E in E'. clear E.
  revert a' E' H2'. induction a as [|x a IH]; intros [|x' a'] E' H2'; cbn [app] in E'; injection E'.
  - congruence.
  - intros E1 E2. exfalso. subst x'. apply (H2' (n, v, q)); [now left|exact H1].
  - intros E1 E2. exfalso. subst x. apply (H2 (n', v', q')); [now left|exact H1'].
  - intros E1 _. apply (IH (fun p P => H2 p (or_intror P)) a' E1). intros p P. apply H2'. now right.
Qed.
