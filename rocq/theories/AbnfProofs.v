(** Proofs about generating data from rules. *)
From Coq Require Import List Arith Bool ZArith Lia.
From Verif Require Import Py Abnf AbnfSpec.
Import ListNotations.
Open Scope nat_scope.

Scheme derive_ind2 := Induction for derive Sort Prop with derives_ind2 := Induction for derives Sort Prop.

Lemma same_letter_upper c : IsALPHA c = true -> same_letter c (upper c).
Proof.
  unfold IsALPHA, same_letter, upper. destruct (Z.leb_spec 97 c), (Z.leb_spec c 122); simpl; try (left; reflexivity).
  right; right. split; [lia | reflexivity].
Qed.
Lemma same_letter_lower c : IsALPHA c = true -> same_letter c (lower c).
Proof.
  unfold IsALPHA, same_letter, lower. destruct (Z.leb_spec 65 c), (Z.leb_spec c 90); simpl; try (left; reflexivity).
  right; left. split; [lia | reflexivity].
Qed.
Lemma any_case_sound : forall s cs t cs', any_case s cs = Some (t, cs') -> Forall2 same_letter s t.
Proof.
  induction s as [|c s IH]; cbn [any_case]; intros cs t cs' H.
  - injection H as <- <-. constructor.
  - destruct (IsALPHA c) eqn:A.
    + destruct (randrange 0 2 cs) as [[x cs1]|]; [|discriminate H].
      destruct (any_case s cs1) as [[u cs2]|] eqn:E; [|discriminate H]. injection H as <- <-.
      constructor; [|eapply IH; exact E].
      destruct (x =? 0)%Z; [apply same_letter_upper | apply same_letter_lower]; exact A.
    + destruct (any_case s cs) as [[u cs2]|] eqn:E; [|discriminate H]. injection H as <- <-.
      constructor; [left; reflexivity | eapply IH; exact E].
Qed.

Section Rules.
Variable R : list (option str * body).

(** what a frame of the stack may still add *)
Definition frame (f : nat * pos) (s : str) : Prop :=
  match nth_error R (fst f), snd f with
  | Some (_, Sequence l), At k => derives R (skipn (S k) l) s
  | Some (_, Sequence l), Left _ _ => derives R l s
  | Some (_, Alias q), At k => derives R (skipn (S k) [q]) s
  | Some (_, Alias q), Left _ _ => derives R [q] s
  | Some (_, Alternative _), (At _ | Left _ _) => s = []
  | Some (_, Repeat _ _ q), Left todo _ => derives R (repeat q (todo - 1)) s
  | _, _ => derive R (fst f) s
  end.
Lemma skipn_nth {A} : forall k (l : list A) x, nth_error l k = Some x -> skipn k l = x :: skipn (S k) l.
Proof. induction k as [|k IH]; intros [|y l] x H; try discriminate H; cbn in *; [injection H as ->; reflexivity | rewrite (IH _ _ H); reflexivity]. Qed.
Lemma nth_none_skipn {A} : forall k (l : list A), nth_error l k = None -> skipn k l = [].
Proof. intros k l H. apply nth_error_None in H. apply skipn_all2; exact H. Qed.
Lemma derives_one q s : derives R [q] s -> derive R q s.
Proof. intro H. inversion H as [|? ? a b D E]; subst. inversion E; subst. rewrite app_nil_r. exact D. Qed.

Lemma generate_sound M : forall fuel stack rc cs out o,
  generate R M fuel stack rc cs out = Generated o ->
  exists ss, Forall2 frame stack ss /\ o = out ++ concat ss.
Proof.
  induction fuel as [|fuel IH]; intros stack rc cs out o H; [discriminate H|].
  destruct stack as [|[r p] stack]; cbn [generate] in H.
  - injection H as ->. exists []. split; [constructor | rewrite app_nil_r; reflexivity].
  - assert (ONE : forall rc cs s, generate R M fuel stack rc cs (out ++ s) = Generated o -> frame (r, p) s ->
       exists ss, Forall2 frame ((r, p) :: stack) ss /\ o = out ++ concat ss).
    { intros rc' cs' s G F. destruct (IH _ _ _ _ _ G) as (ss & F2 & ->). exists (s :: ss). split; [constructor; assumption | cbn; rewrite app_assoc; reflexivity]. }
    assert (ZERO : forall rc cs, generate R M fuel stack rc cs out = Generated o -> frame (r, p) [] ->
       exists ss, Forall2 frame ((r, p) :: stack) ss /\ o = out ++ concat ss).
    { intros rc' cs' G F. apply (ONE rc' cs' []); [rewrite app_nil_r; exact G | exact F]. }
    assert (TWO : forall rc cs q f, generate R M fuel ((q, Start) :: f :: stack) rc cs out = Generated o ->
       (forall s t, derive R q s -> frame f t -> frame (r, p) (s ++ t)) ->
       exists ss, Forall2 frame ((r, p) :: stack) ss /\ o = out ++ concat ss).
    { intros rc' cs' q f G F. destruct (IH _ _ _ _ _ G) as (ss & F2 & ->).
      inversion F2 as [|x s y ss1 F0 F3]; subst. inversion F3 as [|x2 s2 y2 ss2 F4 F5]; subst.
      exists ((s ++ s2) :: ss2). split; [constructor; [apply F; [|exact F4] | exact F5] | cbn; rewrite <- !app_assoc; reflexivity].
      unfold frame in F0. cbn [fst snd] in F0. destruct (nth_error R q) as [[nm b]|]; [destruct b; exact F0 | exact F0]. }
    destruct (nth_error R r) as [[nm b]|] eqn:N; [|discriminate H].
    destruct b as [|s|s|lo hi|l|l|mn mx q|s|q]; try discriminate H.
    + apply (ONE _ _ _ H). unfold frame. cbn [fst snd]. rewrite N. eapply derive_terminal; exact N.
    + destruct (any_case s cs) as [[t cs']|] eqn:E; [|discriminate H]. apply (ONE _ _ _ H).
      unfold frame. cbn [fst snd]. rewrite N. eapply derive_literal; [exact N | eapply any_case_sound; exact E].
    + destruct (Z.leb_spec lo hi) as [L|L]; [|discriminate H]. unfold randrange in H. destruct cs as [|c cs]; [discriminate H|].
      destruct (Z.leb_spec lo c) as [L1|L1]; [|discriminate H]. destruct (Z.ltb_spec c (hi + 1)) as [L2|L2]; [|discriminate H]. cbn [andb] in H.
      destruct (Z.ltb_spec c 0) as [L3|L3]; [discriminate H|]. destruct (Z.ltb_spec 1114111 c) as [L4|L4]; [discriminate H|]. cbn [orb] in H.
      apply (ONE _ _ _ H). unfold frame. cbn [fst snd]. rewrite N. eapply derive_range; [exact N | lia | lia].
    + assert (FR : forall s, derives R (skipn (fst (match p with Start => (0, bump r 1 rc) | At k => (S k, rc) | Left _ _ => (0, rc) end)) l) s -> frame (r, p) s).
      { intros s D. unfold frame. cbn [fst snd]. rewrite N. destruct p; cbn [fst] in D; [eapply derive_sequence; [exact N | exact D] | exact D | exact D]. }
      destruct (match p with Start => (0, bump r 1 rc) | At k => (S k, rc) | Left _ _ => (0, rc) end) as [k rc'] eqn:EK. cbn [fst] in FR.
      destruct (nth_error l k) as [q|] eqn:NK.
      * apply (TWO _ _ _ _ H). intros s t D F. apply FR. rewrite (skipn_nth _ _ _ NK). constructor; [exact D|].
        unfold frame in F. cbn [fst snd] in F. rewrite N in F. exact F.
      * apply (ZERO _ _ H). apply FR. rewrite (nth_none_skipn _ _ NK). constructor.
    + destruct p as [|k|k e].
      * destruct (filter (fun q => nth q (bump r 1 rc) 0 <? M) l) as [|f0 free] eqn:EF; [discriminate H|].
        unfold randrange in H. destruct cs as [|c cs]; [discriminate H|].
        destruct (Z.leb_spec 0 c) as [L1|L1]; [|discriminate H]. destruct (Z.ltb_spec c (Z.of_nat (length (f0 :: free)))) as [L2|L2]; [|discriminate H].
        cbn [andb] in H. apply (TWO _ _ _ _ H). intros s t D F. unfold frame in *. cbn [fst snd] in *. rewrite N in *. subst t. rewrite app_nil_r.
        eapply derive_alternative; [exact N | | exact D].
        assert (I0 : In (nth (Z.to_nat c) (f0 :: free) 0) (f0 :: free)) by (apply nth_In; lia).
        rewrite <- EF in I0 at 2. apply filter_In in I0. exact (proj1 I0).
      * apply (ZERO _ _ H). unfold frame. cbn [fst snd]. rewrite N. reflexivity.
      * apply (ZERO _ _ H). unfold frame. cbn [fst snd]. rewrite N. reflexivity.
    + assert (GO : forall todo extra rc cs,
        (if todo =? 0 then generate R M fuel stack (unbump r extra rc) cs out
         else generate R M fuel ((q, Start) :: (r, Left todo extra) :: stack) rc cs out) = Generated o ->
        (forall s, derives R (repeat q todo) s -> frame (r, p) s) ->
        exists ss, Forall2 frame ((r, p) :: stack) ss /\ o = out ++ concat ss).
      { intros todo extra rc' cs' G F. destruct (Nat.eqb_spec todo 0) as [->|NZ].
        - apply (ZERO _ _ G). apply F. constructor.
        - apply (TWO _ _ _ _ G). intros s t D F2. apply F. unfold frame in F2. cbn [fst snd] in F2. rewrite N in F2.
          destruct todo as [|todo]; [congruence|]. cbn [repeat]. replace (S todo - 1) with todo in F2 by lia. constructor; assumption. }
      cbv zeta in H.
      assert (ST : (p = Start \/ exists k, p = At k) -> exists ss, Forall2 frame ((r, p) :: stack) ss /\ o = out ++ concat ss).
      { intro PS.
        assert (H' : (let most := mn + (M - nth r rc 0) in
           let mx := match mx with Some m => if most <? m then most else m | None => most end in
           if mx <? mn then Raised ValueError else
           match randrange (Z.of_nat mn) (Z.of_nat mx + 1) cs with
           | Some (c, cs) => if Z.to_nat c =? 0 then generate R M fuel stack (unbump r (Z.to_nat c - mn) (bump r (Z.to_nat c - mn) rc)) cs out
               else generate R M fuel ((q, Start) :: (r, Left (Z.to_nat c) (Z.to_nat c - mn)) :: stack) (bump r (Z.to_nat c - mn) rc) cs out
           | None => NotChosen end) = Generated o) by (destruct PS as [-> | [k ->]]; exact H).
        clear H. cbv zeta in H'.
        destruct (_ <? mn) eqn:LM in H'; [discriminate H'|]. apply Nat.ltb_ge in LM.
        unfold randrange in H'. destruct cs as [|c cs]; [discriminate H'|].
        destruct (Z.leb_spec (Z.of_nat mn) c) as [L1|L1]; [|discriminate H'].
        match type of H' with match (if true && (c <? ?x)%Z then _ else _) with _ => _ end = _ => destruct (Z.ltb_spec c x) as [L2|L2] end; [|discriminate H'].
        cbn [andb] in H'. apply (GO _ _ _ _ H'). intros s D.
        assert (DR : derive R r s).
        { eapply derive_repeat; [exact N | | | exact D]; [lia|]. intros m ->. destruct (Nat.ltb_spec (mn + (M - nth r rc 0)) m); lia. }
        unfold frame. cbn [fst snd]. rewrite N. destruct PS as [-> | [k ->]]; exact DR. }
      destruct p as [|k|todo e]; [apply ST; left; reflexivity | apply ST; right; eauto|].
      apply (GO _ _ _ _ H). intros s D. unfold frame. cbn [fst snd]. rewrite N. exact D.
    + assert (FR : forall s, derives R (skipn (fst (match p with Start => (0, bump r 1 rc) | At k => (S k, rc) | Left _ _ => (0, rc) end)) [q]) s -> frame (r, p) s).
      { intros s D. unfold frame. cbn [fst snd]. rewrite N. destruct p; cbn [fst] in D; [eapply derive_alias; [exact N | apply derives_one; exact D] | exact D | exact D]. }
      destruct (match p with Start => (0, bump r 1 rc) | At k => (S k, rc) | Left _ _ => (0, rc) end) as [k rc'] eqn:EK. cbn [fst] in FR.
      destruct (nth_error [q] k) as [q'|] eqn:NK.
      * apply (TWO _ _ _ _ H). intros s t D F. apply FR. rewrite (skipn_nth _ _ _ NK). constructor; [exact D|].
        unfold frame in F. cbn [fst snd] in F. rewrite N in F. exact F.
      * apply (ZERO _ _ H). apply FR. rewrite (nth_none_skipn _ _ NK). constructor.
Qed.
End Rules.
