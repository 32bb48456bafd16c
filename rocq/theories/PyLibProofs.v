From Coq Require Import List Bool Arith Lia Permutation Sorted.
From Verif Require Import PyLibModel.
Import ListNotations.

Section Sort.
  Context {A : Type}.
  Variable ltb : A -> A -> bool.

  (** A strict weak order given as a boolean function. *)
  Record weak_order : Prop := {
    wo_irr : forall x, ltb x x = false;
    wo_asym : forall x y, ltb x y = true -> ltb y x = false;
    wo_trans : forall x y z, ltb y x = false -> ltb z y = false -> ltb z x = false
  }.

  Definition le x y := ltb y x = false.

  Lemma insert_perm x l : Permutation (insert ltb x l) (x :: l).
  Proof.
    induction l as [|y l IH]; simpl; auto.
    destruct (ltb y x); auto. rewrite IH. apply perm_swap.
  Qed.

  Lemma sort_perm l : Permutation (sort ltb l) l.
  Proof. induction l; simpl; auto. rewrite insert_perm. auto. Qed.

  Lemma sort_length l : length (sort ltb l) = length l.
  Proof. apply Permutation_length, sort_perm. Qed.

  Lemma sort_in l x : In x (sort ltb l) <-> In x l.
  Proof.
    split; apply Permutation_in; [apply sort_perm | apply Permutation_sym, sort_perm].
  Qed.

  Lemma sorted_nth l : StronglySorted le l ->
    forall i j x y, i <= j -> nth_error l i = Some x -> nth_error l j = Some y ->
    i = j \/ le x y.
  Proof.
    induction 1 as [|z l Hs IH Hf]; intros i j x y Hij Hi Hj.
    - destruct i; discriminate.
    - destruct i, j; simpl in *; auto; try lia.
      + inversion Hi; subst. right. rewrite Forall_forall in Hf. apply Hf.
        eapply nth_error_In; eauto.
      + destruct (IH i j x y) as [->|H]; auto; lia.
  Qed.

  Hypothesis W : weak_order.

  Lemma le_refl x : le x x.
  Proof. apply (wo_irr W). Qed.
  Lemma le_trans x y z : le x y -> le y z -> le x z.
  Proof. unfold le. intros H1 H2. eapply (wo_trans W); eauto. Qed.

  Lemma insert_sorted x l : StronglySorted le l -> StronglySorted le (insert ltb x l).
  Proof.
    induction 1 as [|y l Hs IH Hf]; simpl.
    - repeat constructor.
    - destruct (ltb y x) eqn:E.
      + constructor; auto. rewrite Forall_forall in *. intros z Hz.
        apply (Permutation_in _ (insert_perm x l)) in Hz. destruct Hz as [<-|Hz]; auto.
        apply (wo_asym W), E.
      + constructor; [constructor; auto|]. constructor; auto.
        rewrite Forall_forall in *. intros z Hz. eapply le_trans; eauto.
  Qed.

  Lemma sort_sorted l : StronglySorted le (sort ltb l).
  Proof. induction l; simpl; auto using insert_sorted. constructor. Qed.

  (** Two sorted permutations coincide when equivalent elements are equal. *)
  Lemma sorted_perm_unique :
    (forall x y, le x y -> le y x -> x = y) ->
    forall l1 l2, StronglySorted le l1 -> StronglySorted le l2 -> Permutation l1 l2 ->
                  l1 = l2.
  Proof.
    intros anti. induction l1 as [|a l1 IH]; intros l2 H1 H2 HP.
    - apply Permutation_nil in HP. auto.
    - destruct l2 as [|b l2]; [apply Permutation_sym, Permutation_nil in HP; discriminate|].
      inversion H1 as [|? ? Hs1 Hf1]; subst. inversion H2 as [|? ? Hs2 Hf2]; subst.
      assert (a = b).
      { rewrite Forall_forall in *.
        assert (Hb : In b (a :: l1)) by (eapply Permutation_in; [apply Permutation_sym, HP|left; auto]).
        assert (Ha : In a (b :: l2)) by (eapply Permutation_in; [apply HP|left; auto]).
        destruct Ha as [->|Ha]; auto. destruct Hb as [<-|Hb]; auto. }
      subst. f_equal. apply IH; auto. eapply Permutation_cons_inv; eauto.
  Qed.

  (** Stability: the elements of an equivalence class keep their order. *)
  Lemma insert_filter_other (f : A -> bool) x l : f x = false ->
    filter f (insert ltb x l) = filter f l.
  Proof.
    intros Hx. induction l as [|y l IH]; simpl.
    - rewrite Hx. reflexivity.
    - destruct (ltb y x); simpl; [rewrite IH; reflexivity|]. rewrite Hx. reflexivity.
  Qed.

  Lemma insert_filter_class (f : A -> bool) x l :
    (forall y, f y = true -> ltb y x = false) -> f x = true ->
    filter f (insert ltb x l) = x :: filter f l.
  Proof.
    intros Hc Hx. induction l as [|y l IH]; simpl.
    - rewrite Hx. reflexivity.
    - destruct (ltb y x) eqn:E; simpl.
      + rewrite IH. destruct (f y) eqn:Ey; auto. rewrite (Hc _ Ey) in E. discriminate.
      + rewrite Hx. reflexivity.
  Qed.

  Lemma sort_stable (f : A -> bool) l :
    (forall x y, f x = true -> f y = true -> ltb x y = false) ->
    filter f (sort ltb l) = filter f l.
  Proof.
    intros Hc. induction l as [|x l IH]; simpl; auto.
    destruct (f x) eqn:E.
    - rewrite insert_filter_class, IH; auto.
    - rewrite insert_filter_other, IH; auto.
  Qed.

  (** A sorted list is left alone. *)
  Lemma sort_id l : StronglySorted le l -> sort ltb l = l.
  Proof.
    induction 1 as [|x l Hs IH Hf]; simpl; auto. rewrite IH.
    destruct l as [|y l]; simpl; auto. inversion Hf; subst. unfold le in *.
    rewrite H1. reflexivity.
  Qed.
End Sort.

Arguments weak_order {A} ltb.

Lemma mid_bounds lo hi : lo < hi -> lo <= (lo + hi) / 2 < hi.
Proof.
  intros H. split.
  - apply Nat.div_le_lower_bound; lia.
  - apply Nat.div_lt_upper_bound; lia.
Qed.

Section Bisect.
  Context {A : Type}.
  Variable ltb : A -> A -> bool.
  Hypothesis W : weak_order ltb.

  Lemma bisect_left_loop_spec l x : StronglySorted (le ltb) l ->
    forall fuel lo hi, hi - lo <= fuel -> lo <= hi -> hi <= length l ->
    (forall i y, i < lo -> nth_error l i = Some y -> ltb y x = true) ->
    (forall i y, hi <= i -> nth_error l i = Some y -> ltb y x = false) ->
    let r := bisect_left_loop ltb l x fuel lo hi in
    r <= length l /\
    (forall i y, i < r -> nth_error l i = Some y -> ltb y x = true) /\
    (forall i y, r <= i -> nth_error l i = Some y -> ltb y x = false).
  Proof.
    intros Hs. induction fuel as [|f IH]; intros lo hi Hf Hlh Hhl Hl Hr; cbn [bisect_left_loop bisect_right_loop]; cbv zeta.
    - assert (lo = hi) by lia. subst. auto.
    - destruct (Nat.ltb_spec lo hi) as [H|H].
      2:{ assert (lo = hi) by lia. subst. auto. }
      pose proof (mid_bounds lo hi H) as [Hm1 Hm2]. set (mid := (lo + hi) / 2) in *.
      destruct (nth_error l mid) as [y|] eqn:E.
      2:{ apply nth_error_None in E. lia. }
      destruct (ltb y x) eqn:Ey.
      + apply IH; try lia; auto. intros i z Hi Hz.
        destruct (ltb z x) eqn:Ez; auto. exfalso.
        destruct (sorted_nth ltb l Hs i mid z y) as [->|Hle]; auto; try lia; try congruence.
        pose proof (wo_trans ltb W x z y Ez Hle). congruence.
      + apply IH; try lia; auto. intros i z Hi Hz.
        destruct (sorted_nth ltb l Hs mid i y z) as [<-|Hle]; auto; try lia; try congruence.
        exact (wo_trans ltb W x y z Ey Hle).
  Qed.

  Lemma bisect_left_spec l x : StronglySorted (le ltb) l ->
    let r := bisect_left ltb l x in
    r <= length l /\
    (forall i y, i < r -> nth_error l i = Some y -> ltb y x = true) /\
    (forall i y, r <= i -> nth_error l i = Some y -> ltb y x = false).
  Proof.
    intros Hs. apply bisect_left_loop_spec; auto; try lia.
    intros i y Hi Hn. assert (i < length l) by (apply nth_error_Some; congruence). lia.
  Qed.

  Lemma bisect_right_loop_spec l x : StronglySorted (le ltb) l ->
    forall fuel lo hi, hi - lo <= fuel -> lo <= hi -> hi <= length l ->
    (forall i y, i < lo -> nth_error l i = Some y -> ltb x y = false) ->
    (forall i y, hi <= i -> nth_error l i = Some y -> ltb x y = true) ->
    let r := bisect_right_loop ltb l x fuel lo hi in
    r <= length l /\
    (forall i y, i < r -> nth_error l i = Some y -> ltb x y = false) /\
    (forall i y, r <= i -> nth_error l i = Some y -> ltb x y = true).
  Proof.
    intros Hs. induction fuel as [|f IH]; intros lo hi Hf Hlh Hhl Hl Hr; cbn [bisect_left_loop bisect_right_loop]; cbv zeta.
    - assert (lo = hi) by lia. subst. auto.
    - destruct (Nat.ltb_spec lo hi) as [H|H].
      2:{ assert (lo = hi) by lia. subst. auto. }
      pose proof (mid_bounds lo hi H) as [Hm1 Hm2]. set (mid := (lo + hi) / 2) in *.
      destruct (nth_error l mid) as [y|] eqn:E.
      2:{ apply nth_error_None in E. lia. }
      destruct (ltb x y) eqn:Ey.
      + apply IH; try lia; auto. intros i z Hi Hz.
        destruct (ltb x z) eqn:Ez; auto. exfalso.
        destruct (sorted_nth ltb l Hs mid i y z) as [->|Hle]; auto; try lia; try congruence.
        pose proof (wo_trans ltb W y z x Hle Ez). congruence.
      + apply IH; try lia; auto. intros i z Hi Hz.
        destruct (sorted_nth ltb l Hs i mid z y) as [->|Hle]; auto; try lia; try congruence.
        exact (wo_trans ltb W z y x Hle Ey).
  Qed.

  Lemma bisect_right_spec l x : StronglySorted (le ltb) l ->
    let r := bisect_right ltb l x in
    r <= length l /\
    (forall i y, i < r -> nth_error l i = Some y -> ltb x y = false) /\
    (forall i y, r <= i -> nth_error l i = Some y -> ltb x y = true).
  Proof.
    intros Hs. apply bisect_right_loop_spec; auto; try lia.
    intros i y Hi Hn. assert (i < length l) by (apply nth_error_Some; congruence). lia.
  Qed.
End Bisect.

(** Lexicographic order of lists. *)
Section Lex.
  Context {A : Type}.
  Variables eqb ltb : A -> A -> bool.
  Hypothesis eqb_eq : forall x y, eqb x y = true <-> x = y.
  Hypothesis lt_irr : forall x, ltb x x = false.
  Hypothesis lt_asym : forall x y, ltb x y = true -> ltb y x = false.
  Hypothesis lt_trans : forall x y z, ltb x y = true -> ltb y z = true -> ltb x z = true.
  Hypothesis lt_total : forall x y, ltb x y = false -> ltb y x = false -> x = y.

  Lemma lex_irr a : lex_ltb eqb ltb a a = false.
  Proof.
    induction a as [|x a IH]; simpl; auto.
    assert (E : eqb x x = true) by (apply eqb_eq; auto). rewrite E. auto.
  Qed.

  Lemma lex_total a : forall b, lex_ltb eqb ltb a b = false -> lex_ltb eqb ltb b a = false -> a = b.
  Proof.
    induction a as [|x a IH]; destruct b as [|y b]; simpl; try discriminate; auto.
    destruct (eqb x y) eqn:E.
    - apply eqb_eq in E. subst. assert (E : eqb y y = true) by (apply eqb_eq; auto).
      rewrite E. intros; f_equal; auto.
    - destruct (eqb y x) eqn:E2.
      + apply eqb_eq in E2. subst. assert (eqb x x = true) by (apply eqb_eq; auto). congruence.
      + intros H1 H2. pose proof (lt_total _ _ H1 H2). subst.
        assert (eqb y y = true) by (apply eqb_eq; auto). congruence.
  Qed.

  Lemma lex_trans a : forall b c, lex_ltb eqb ltb a b = true -> lex_ltb eqb ltb b c = true ->
    lex_ltb eqb ltb a c = true.
  Proof.
    induction a as [|x a IH]; destruct b as [|y b], c as [|z c]; simpl; try discriminate; auto.
    destruct (eqb x y) eqn:E1.
    - apply eqb_eq in E1. subst. destruct (eqb y z) eqn:E2; eauto.
    - destruct (eqb y z) eqn:E2.
      + apply eqb_eq in E2. subst. rewrite E1. auto.
      + intros H1 H2. destruct (eqb x z) eqn:E3.
        * apply eqb_eq in E3. subst. rewrite (lt_asym _ _ H1) in H2. discriminate.
        * eauto.
  Qed.

  Lemma lex_asym a b : lex_ltb eqb ltb a b = true -> lex_ltb eqb ltb b a = false.
  Proof.
    intros H. destruct (lex_ltb eqb ltb b a) eqn:E; auto.
    pose proof (lex_trans _ _ _ H E) as H2. rewrite lex_irr in H2. discriminate.
  Qed.

  Lemma lex_weak_order : weak_order (lex_ltb eqb ltb).
  Proof.
    constructor.
    - apply lex_irr.
    - apply lex_asym.
    - intros x y z H1 H2. destruct (lex_ltb eqb ltb z x) eqn:E; auto.
      destruct (lex_ltb eqb ltb x y) eqn:E2.
      + rewrite (lex_trans _ _ _ E E2) in H2. discriminate.
      + rewrite (lex_total _ _ E2 H1) in E. congruence.
  Qed.
End Lex.

(** ---- list updates ---- *)
Lemma set_nth_length {A} (l : list A) i x : length (set_nth l i x) = length l.
Proof. revert i; induction l; intros [|i]; simpl; auto. Qed.

Lemma nth_set_nth_same {A} (l : list A) i x : i < length l -> nth_error (set_nth l i x) i = Some x.
Proof. revert i; induction l; intros [|i]; simpl; intros; auto; try lia. apply IHl; lia. Qed.

Lemma nth_set_nth_other {A} (l : list A) i j x : i <> j ->
  nth_error (set_nth l i x) j = nth_error l j.
Proof. revert i j; induction l; intros [|i] [|j]; simpl; intros; auto; try lia. Qed.

Lemma map_set_nth {A B} (f : A -> B) l i x : map f (set_nth l i x) = set_nth (map f l) i (f x).
Proof. revert i; induction l; intros [|i]; simpl; auto. f_equal; auto. Qed.

Lemma remove_nth_length {A} (l : list A) i : i < length l ->
  length (remove_nth l i) = length l - 1.
Proof. revert i; induction l; intros [|i]; simpl; intros; try lia. rewrite IHl; lia. Qed.

Lemma nth_remove_nth {A} (l : list A) i j :
  nth_error (remove_nth l i) j = nth_error l (if j <? i then j else S j).
Proof.
  revert i j; induction l; intros [|i] [|j]; simpl; auto.
  - destruct (S j <? S i); reflexivity.
  - rewrite IHl. change (S j <? S i) with (j <? i). destruct (j <? i); reflexivity.
Qed.

Lemma list_ext {A} (l1 l2 : list A) : (forall i, nth_error l1 i = nth_error l2 i) -> l1 = l2.
Proof.
  revert l2; induction l1 as [|x l1 IH]; intros [|y l2] H; auto.
  - specialize (H 0); discriminate.
  - specialize (H 0); discriminate.
  - pose proof (H 0) as H0; inversion H0; subst. f_equal. apply IH. intros i. apply (H (S i)).
Qed.
