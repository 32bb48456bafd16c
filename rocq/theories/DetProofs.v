(** Determinants: the expansion along the first row is the only alternating multilinear
    function of the rows that is 1 on the unit matrix; products and transposes. *)
From Coq Require Import Reals List Bool Lia Lra Arith.
From Verif Require Import HitPyModel HitPySpec HitPyProofs CommonSpec CommonProofs GridProofs EllipseModel.
Import ListNotations.
Open Scope R_scope.

Notation Mat := (nat -> nat -> R).

Definition upd (A : Mat) (k : nat) (r : nat -> R) : Mat := fun i j => if Nat.eqb i k then r j else A i j.
Definition unit_row (k : nat) : nat -> R := fun j => if Nat.eqb j k then 1 else 0.
Definition one : Mat := fun i => unit_row i.

Record alternating (n : nat) (F : Mat -> R) : Prop := {
  alt_ext : forall A B, (forall i j, (i < n)%nat -> (j < n)%nat -> A i j = B i j) -> F A = F B;
  alt_lin : forall A k r s a, (k < n)%nat ->
    F (upd A k (fun j => a * r j + s j)) = a * F (upd A k r) + F (upd A k s);
  alt_adj : forall A k, (S k < n)%nat -> (forall j, (j < n)%nat -> A k j = A (S k) j) -> F A = 0 }.

Ltac eqs := repeat match goal with
  | |- context [Nat.eqb ?a ?b] => destruct (Nat.eqb_spec a b); subst
  | H : context [Nat.eqb ?a ?b] |- _ => destruct (Nat.eqb_spec a b); subst
  end.

Section Alt.
  Variables (n : nat) (F : Mat -> R).
  Hypothesis H : alternating n F.

  Lemma alt_zero A k : (k < n)%nat -> F (upd A k (fun _ => 0)) = 0.
  Proof.
    intros Hk. pose proof (alt_lin n F H A k (fun _ => 0) (fun _ => 0) 1 Hk) as E. cbv beta in E.
    rewrite (alt_ext n F H (upd A k (fun _ => 1 * 0 + 0)) (upd A k (fun _ => 0))) in E; [lra|].
    intros. unfold upd. eqs; lra.
  Qed.

  Lemma alt_plus A k r s : (k < n)%nat ->
    F (upd A k (fun j => r j + s j)) = F (upd A k r) + F (upd A k s).
  Proof.
    intros Hk. rewrite <- (Rmult_1_l (F (upd A k r))), <- (alt_lin n F H) by auto.
    apply (alt_ext n F H). intros. unfold upd. eqs; lra.
  Qed.

  Lemma alt_scale A k a r : (k < n)%nat -> F (upd A k (fun j => a * r j)) = a * F (upd A k r).
  Proof.
    intros Hk. rewrite <- (Rplus_0_r (a * F (upd A k r))), <- (alt_zero A k Hk), <- (alt_lin n F H) by auto.
    apply (alt_ext n F H). intros. unfold upd. eqs; lra.
  Qed.

  Lemma upd_same A k : F (upd A k (A k)) = F A.
  Proof. apply (alt_ext n F H). intros. unfold upd. eqs; auto. Qed.

  (** Two rows replaced. *)
  Definition upd2 (A : Mat) (k l : nat) (r s : nat -> R) : Mat := upd (upd A k r) l s.

  Lemma upd_comm A k l r s : k <> l -> F (upd (upd A k r) l s) = F (upd (upd A l s) k r).
  Proof. intros N. apply (alt_ext n F H). intros. unfold upd. eqs; auto; congruence. Qed.

  Lemma swap_from_equal k l (Hk : (k < n)%nat) (Hl : (l < n)%nat) (N : k <> l) :
    (forall A r, F (upd (upd A k r) l r) = 0) ->
    forall A r s, F (upd (upd A k r) l s) = - F (upd (upd A k s) l r).
  Proof.
    intros E A r s.
    pose proof (E A (fun j => r j + s j)) as Q.
    rewrite alt_plus in Q by auto. rewrite !(upd_comm A k l) in Q by auto.
    rewrite !alt_plus in Q by auto. rewrite <- !(upd_comm A k l) in Q by auto.
    rewrite !E in Q. lra.
  Qed.

  Lemma adj_equal k A r : (S k < n)%nat -> F (upd (upd A k r) (S k) r) = 0.
  Proof.
    intros Hk. apply (alt_adj n F H) with (k := k); auto. intros j Hj. unfold upd.
    eqs; auto; lia.
  Qed.

  Lemma two_equal d : forall k A r, (k + S d < n)%nat -> F (upd (upd A k r) (k + S d) r) = 0.
  Proof.
    induction d as [|d IH]; intros k A r Hk.
    - rewrite Nat.add_1_r. apply adj_equal. lia.
    - set (m := (k + S d)%nat). assert (Hm : (k + S (S d) = S m)%nat) by (unfold m; lia). rewrite Hm in *.
      set (B := upd A k r).
      assert (E : F (upd B (S m) r) = F (upd (upd B m (B m)) (S m) r)).
      { apply (alt_ext n F H). intros. unfold upd. eqs; auto. }
      rewrite E, (swap_from_equal m (S m)) by (try lia; intros; apply adj_equal; lia).
      assert (E2 : F (upd (upd B m r) (S m) (B m)) = F (upd (upd (upd A (S m) (B m)) k r) m r)).
      { apply (alt_ext n F H). intros i j Hi Hj. assert (Nk : m <> k) by (unfold m; lia). unfold B, upd. clearbody m. eqs; auto; lia. }
      rewrite E2. unfold m. rewrite IH by lia. lra.
  Qed.

  Lemma equal_rows k l A r : (k < n)%nat -> (l < n)%nat -> k <> l -> F (upd (upd A k r) l r) = 0.
  Proof.
    intros Hk Hl N. destruct (Nat.lt_trichotomy k l) as [L|[L|L]]; [|lia|].
    - replace l with (k + S (l - S k))%nat by lia. apply two_equal. lia.
    - rewrite upd_comm by auto. replace k with (l + S (k - S l))%nat by lia. apply two_equal. lia.
  Qed.

  Lemma swap_rows k l A r s : (k < n)%nat -> (l < n)%nat -> k <> l ->
    F (upd (upd A k r) l s) = - F (upd (upd A k s) l r).
  Proof. intros Hk Hl N. apply swap_from_equal; auto. intros. apply equal_rows; auto. Qed.

  Lemma add_multiple A k l a : (k < n)%nat -> (l < n)%nat -> k <> l ->
    F (upd A l (fun j => A l j + a * A k j)) = F A.
  Proof.
    intros Hk Hl N.
    rewrite (alt_ext n F H _ (upd A l (fun j => a * A k j + A l j))) by (intros; unfold upd; eqs; lra).
    rewrite (alt_lin n F H), upd_same by auto.
    assert (E : F (upd A l (A k)) = F (upd (upd A k (A k)) l (A k))).
    { apply (alt_ext n F H). intros. unfold upd. eqs; auto. }
    rewrite E, equal_rows by auto. lra.
  Qed.

  Lemma expand_row A k (c : nat -> R) m : (k < n)%nat ->
    F (upd A k (fun j => sum_n m (fun t => c t * unit_row t j))) =
    sum_n m (fun t => c t * F (upd A k (unit_row t))).
  Proof.
    intros Hk. induction m as [|m IH]; cbn [sum_n]; [apply alt_zero; auto|].
    rewrite alt_plus, IH, alt_scale by auto. reflexivity.
  Qed.

  Lemma sum_unit m (c : nat -> R) j : (j < m)%nat -> sum_n m (fun t => c t * unit_row t j) = c j.
  Proof.
    intros Hj. rewrite (sum_n_one m _ j); auto.
    - unfold unit_row. rewrite Nat.eqb_refl. lra.
    - intros i Hi Ni. unfold unit_row. destruct (Nat.eqb_spec j i); [congruence|lra].
  Qed.

  Lemma expand_first A : (0 < n)%nat ->
    F A = sum_n n (fun t => A 0%nat t * F (upd A 0 (unit_row t))).
  Proof.
    intros Hn. rewrite <- expand_row by auto. rewrite <- (upd_same A 0) at 1.
    apply (alt_ext n F H). intros i j Hi Hj. unfold upd. eqs; auto. symmetry. apply sum_unit. auto.
  Qed.

  (** Rows 1 .. m with column t cleared, row 0 the unit row t. *)
  Definition cleared (A : Mat) (t m : nat) : Mat := fun i j =>
    if Nat.eqb i 0 then unit_row t j
    else if (Nat.leb i m && Nat.eqb j t)%bool then 0 else A i j.

  Lemma clear_column A t m : (t < n)%nat -> (m < n)%nat ->
    F (upd A 0 (unit_row t)) = F (cleared A t m).
  Proof.
    intros Ht. induction m as [|m IH]; intros Hm.
    - apply (alt_ext n F H). intros i j Hi Hj. unfold upd, cleared. destruct i; reflexivity.
    - rewrite IH by lia.
      rewrite <- (add_multiple (cleared A t m) 0 (S m) (- A (S m) t)) by lia.
      apply (alt_ext n F H). intros i j Hi Hj. unfold upd, cleared, unit_row.
      destruct (Nat.eqb_spec i (S m)) as [->|N].
      + cbn [Nat.eqb]. replace (Nat.leb (S m) m) with false by (symmetry; apply Nat.leb_gt; lia).
        replace (Nat.leb (S m) (S m)) with true by (symmetry; apply Nat.leb_le; lia). cbn [andb].
        destruct (Nat.eqb_spec j t); [subst|]; lra.
      + destruct (Nat.eqb_spec i 0); auto.
        replace (Nat.leb i (S m)) with (Nat.leb i m); auto.
        destruct (Nat.leb_spec i m), (Nat.leb_spec i (S m)); auto; lia.
  Qed.
End Alt.

(** A matrix with first row the unit row t and B in the other rows and columns. *)
Definition insert (t : nat) (B : Mat) : Mat := fun i j =>
  match i with
  | O => unit_row t j
  | S i' => if Nat.eqb j t then 0 else B i' (if Nat.ltb j t then j else j - 1)%nat
  end.

Definition skip (t b : nat) : nat := if Nat.ltb b t then b else S b.

Lemma insert_alternating n F t : (t <= n)%nat -> alternating (S n) F ->
  alternating n (fun B => F (insert t B)).
Proof.
  intros Ht H. split.
  - intros A B E. apply (alt_ext _ _ H). intros [|i] j Hi Hj; cbn [insert]; auto.
    destruct (Nat.eqb_spec j t); auto. apply E; [lia|]. destruct (Nat.ltb_spec j t); lia.
  - intros A k r s a Hk.
    assert (E : forall r, F (insert t (upd A k r)) =
      F (upd (insert t A) (S k) (fun j => if Nat.eqb j t then 0 else r (if Nat.ltb j t then j else j - 1)%nat))).
    { intros r0. apply (alt_ext _ _ H). intros [|i] j Hi Hj; cbn [insert upd Nat.eqb]; auto.
      unfold upd. cbn [Nat.eqb]. destruct (Nat.eqb_spec i k); auto. }
    rewrite !E. rewrite <- (alt_lin _ _ H) by lia. apply (alt_ext _ _ H). intros i j Hi Hj. unfold upd.
    destruct (Nat.eqb_spec i (S k)); auto. destruct (Nat.eqb_spec j t); auto. lra.
  - intros A k Hk E. apply (alt_adj _ _ H) with (k := S k); [lia|]. intros j Hj. cbn [insert].
    destruct (Nat.eqb_spec j t); auto. apply E. destruct (Nat.ltb_spec j t); lia.
Qed.

(** insert t one is the unit matrix with row t moved to the top. *)
Lemma insert_one n F t : alternating (S n) F -> (t <= n)%nat -> F (insert t one) = (-1) ^ t * F one.
Proof.
  intros H. induction t as [|t IH]; intros Ht.
  - cbn [pow]. rewrite Rmult_1_l. apply (alt_ext _ _ H). intros [|i] j Hi Hj; cbn [insert]; auto.
    unfold one, unit_row. cbn [Nat.ltb Nat.leb]. eqs; auto; lia.
  - cbn [pow]. rewrite Rmult_assoc, <- IH by lia.
    assert (E : F (insert t one) = F (upd (upd (insert t one) 0 (unit_row t)) (S t) (unit_row (S t)))).
    { apply (alt_ext _ _ H). intros i j Hi Hj. unfold upd.
      destruct (Nat.eqb_spec i (S t)) as [->|N1]; [|destruct (Nat.eqb_spec i 0) as [->|N2]; auto].
      cbn [insert]. unfold one, unit_row. destruct (Nat.ltb_spec j t); eqs; auto; lia. }
    rewrite E, (swap_rows _ _ H) by lia.
    replace (F (insert (S t) one)) with (F (upd (upd (insert t one) 0 (unit_row (S t))) (S t) (unit_row t))); [lra|].
    apply (alt_ext _ _ H). intros i j Hi Hj. unfold upd.
    destruct (Nat.eqb_spec i (S t)) as [->|N1]; [|destruct (Nat.eqb_spec i 0) as [->|N2]; auto].
    + cbn [insert]. unfold one, unit_row. destruct (Nat.ltb_spec j (S t)); eqs; auto; lia.
    + destruct i as [|i]; [lia|]. cbn [insert]. unfold one, unit_row.
      destruct (Nat.ltb_spec j t), (Nat.ltb_spec j (S t)); eqs; auto; lia.
Qed.

(** Uniqueness. *)
Lemma det_unique n : forall F, alternating n F -> forall A, F A = det_n n A * F one.
Proof.
  induction n as [|n IH]; intros F H A.
  - cbn [det_n]. rewrite Rmult_1_l. apply (alt_ext _ _ H). intros; lia.
  - rewrite (expand_first _ _ H A) by lia. cbn [det_n].
    rewrite Rmult_comm, <- sum_n_scale. apply sum_n_ext. intros t Ht.
    rewrite (clear_column _ _ H A t n) by lia.
    set (B := fun a b => A (S a) (skip t b)).
    assert (E : F (cleared A t n) = F (insert t B)).
    { apply (alt_ext _ _ H). intros [|i] j Hi Hj; cbn [insert]; auto. unfold cleared, B. cbn [Nat.eqb].
      replace (Nat.leb (S i) n) with true by (symmetry; apply Nat.leb_le; lia). cbn [andb].
      destruct (Nat.eqb_spec j t); auto. f_equal. unfold skip.
      destruct (Nat.ltb_spec j t).
      - destruct (Nat.ltb_spec j t); lia.
      - destruct (Nat.ltb_spec (j - 1) t); lia. }
    rewrite E, (IH _ (insert_alternating n F t ltac:(lia) H)), (insert_one n F t H) by lia.
    unfold B, skip. ring.
Qed.

(** ---- expansion along the first column ---- *)
Fixpoint det_c (n : nat) (m : Mat) : R :=
  match n with
  | O => 1
  | S k => sum_n (S k) (fun i => (-1) ^ i * m i 0%nat * det_c k (fun a b => m (skip i a) (S b)))
  end.

Lemma det_c_alternating n : alternating n (det_c n).
Proof.
  induction n as [|n IH].
  - split; intros; try lia; reflexivity.
  - split.
    + intros A B E. cbn [det_c]. apply sum_n_ext. intros i Hi. rewrite (E i 0%nat) by lia. f_equal.
      apply (alt_ext _ _ IH). intros a b Ha Hb. apply E; [|lia]. unfold skip. destruct (Nat.ltb_spec a i); lia.
    + intros A k r s a Hk. change (det_c (S n)) with (fun m => sum_n (S n) (fun i => (-1) ^ i * m i 0%nat * det_c n (fun a b => m (skip i a) (S b)))).
      cbv beta. rewrite <- sum_n_scale, <- sum_n_plus. apply sum_n_ext. intros i Hi.
      destruct (Nat.eqb_spec i k) as [->|N].
      * assert (E : forall r, det_c n (fun a b => upd A k r (skip k a) (S b)) = det_c n (fun a b => A (skip k a) (S b))).
        { intros r0. apply (alt_ext _ _ IH). intros a' b' Ha Hb. unfold upd.
          destruct (Nat.eqb_spec (skip k a') k) as [E|]; auto. unfold skip in E. destruct (Nat.ltb_spec a' k); lia. }
        rewrite !E. unfold upd. rewrite Nat.eqb_refl. ring.
      * set (k' := if Nat.ltb k i then k else (k - 1)%nat).
        assert (Hk' : (k' < n)%nat) by (unfold k'; destruct (Nat.ltb_spec k i); lia).
        assert (E : forall r, det_c n (fun a b => upd A k r (skip i a) (S b)) =
           det_c n (upd (fun a b => A (skip i a) (S b)) k' (fun b => r (S b)))).
        { intros r0. apply (alt_ext _ _ IH). intros a' b' Ha Hb. unfold upd.
          assert (Q : skip i a' = k <-> a' = k').
          { unfold skip, k'. destruct (Nat.ltb_spec a' i), (Nat.ltb_spec k i); lia. }
          destruct (Nat.eqb_spec (skip i a') k), (Nat.eqb_spec a' k'); auto; tauto. }
        rewrite !E.
        pose proof (alt_lin _ _ IH (fun a b => A (skip i a) (S b)) k' (fun b => r (S b)) (fun b => s (S b)) a Hk') as L.
        cbv beta in L. rewrite L.
        unfold upd at 1 4 6. destruct (Nat.eqb_spec i k); [congruence|]. ring.
    + intros A k Hk E. cbn [det_c].
      rewrite (sum_n_ext _ _ (fun i => (if Nat.eqb i k then (-1) ^ k * A k 0%nat * det_c n (fun a b => A (skip k a) (S b)) else 0) +
         (if Nat.eqb i (S k) then (-1) ^ S k * A k 0%nat * det_c n (fun a b => A (skip k a) (S b)) else 0))).
      * rewrite sum_n_plus, (sum_n_one (S n) _ k), (sum_n_one (S n) _ (S k)); try lia.
        -- rewrite !Nat.eqb_refl. cbn [pow]. ring.
        -- intros i Hi N. destruct (Nat.eqb_spec i (S k)); [congruence|auto].
        -- intros i Hi N. destruct (Nat.eqb_spec i k); [congruence|auto].
      * intros i Hi. destruct (Nat.eqb_spec i k) as [->|N1].
        -- destruct (Nat.eqb_spec k (S k)); [lia|]. ring.
        -- destruct (Nat.eqb_spec i (S k)) as [->|N2].
           ++ rewrite <- (E 0%nat) by lia.
              replace (det_c n (fun a b => A (skip (S k) a) (S b))) with (det_c n (fun a b => A (skip k a) (S b))); [ring|].
              apply (alt_ext _ _ IH). intros a b Ha Hb. unfold skip.
              destruct (Nat.ltb_spec a k), (Nat.ltb_spec a (S k)); auto; try lia.
              assert (a = k) by lia. subst. symmetry. apply E. lia.
           ++ rewrite (alt_adj _ _ IH _ (if Nat.ltb k i then k else (k - 1)%nat)).
              ** ring.
              ** destruct (Nat.ltb_spec k i); lia.
              ** intros j Hj. unfold skip. destruct (Nat.ltb_spec k i).
                 --- destruct (Nat.ltb_spec k i), (Nat.ltb_spec (S k) i); try lia. apply E. lia.
                 --- destruct (Nat.ltb_spec (k - 1) i), (Nat.ltb_spec (S (k - 1)) i); try lia.
                     replace (S (k - 1)) with k by lia. apply E. lia.
Qed.

Lemma det_c_one n : det_c n one = 1.
Proof.
  induction n as [|n IH]; [reflexivity|]. cbn [det_c].
  rewrite (sum_n_one (S n) _ 0%nat); [|lia|].
  - unfold one at 1, unit_row. cbn [Nat.eqb pow].
    rewrite (alt_ext _ _ (det_c_alternating n) _ one); [rewrite IH; ring|].
    intros i j Hi Hj. unfold one, unit_row, skip. cbn [Nat.ltb Nat.leb]. eqs; auto; lia.
  - intros i Hi N. unfold one at 1, unit_row. destruct (Nat.eqb_spec 0 i); [lia|ring].
Qed.

Lemma det_rows_columns n A : det_c n A = det_n n A.
Proof. rewrite (det_unique n _ (det_c_alternating n)), det_c_one. ring. Qed.

Lemma det_alternating n : alternating n (det_n n).
Proof.
  destruct (det_c_alternating n) as [A B C].
  split; intros; rewrite <- ?det_rows_columns; auto. eapply C; eauto.
Qed.

Lemma det_one n : det_n n one = 1.
Proof. rewrite <- det_rows_columns. apply det_c_one. Qed.

Lemma det_ext n A B : (forall i j, (i < n)%nat -> (j < n)%nat -> A i j = B i j) -> det_n n A = det_n n B.
Proof. apply (alt_ext _ _ (det_alternating n)). Qed.

Lemma det_transpose n : forall A, det_n n (fun i j => A j i) = det_n n A.
Proof.
  induction n as [|n IH]; intros A; [reflexivity|].
  rewrite <- (det_rows_columns (S n) A). cbn [det_n det_c]. apply sum_n_ext. intros t Ht.
  rewrite det_rows_columns, <- IH. reflexivity.
Qed.

Definition mul (n : nat) (A B : Mat) : Mat := fun i j => sum_n n (fun k => A i k * B k j).

Lemma det_mul n A B : det_n n (mul n A B) = det_n n A * det_n n B.
Proof.
  pose proof (det_alternating n) as H.
  assert (G : alternating n (fun A => det_n n (mul n A B))).
  { split.
    - intros X Y E. apply det_ext. intros i j Hi Hj. apply sum_n_ext. intros k Hk. rewrite E; auto.
    - intros X k r s a Hk.
      assert (Q : forall r, det_n n (mul n (upd X k r) B) = det_n n (upd (mul n X B) k (fun j => sum_n n (fun l => r l * B l j)))).
      { intros r0. apply det_ext. intros i j Hi Hj. unfold mul, upd. destruct (Nat.eqb i k); auto. }
      rewrite !Q, <- (alt_lin _ _ H) by auto. apply det_ext. intros i j Hi Hj. unfold upd.
      destruct (Nat.eqb i k); auto. rewrite <- sum_n_scale, <- sum_n_plus. apply sum_n_ext. intros; ring.
    - intros X k Hk E. apply (alt_adj _ _ H) with (k := k); auto. intros j Hj. apply sum_n_ext. intros l Hl. rewrite E; auto. }
  rewrite (det_unique n _ G A). f_equal. apply det_ext. intros i j Hi Hj. unfold mul.
  rewrite (sum_n_one n _ i); auto.
  - unfold one, unit_row. rewrite Nat.eqb_refl. ring.
  - intros k Hk N. unfold one, unit_row. destruct (Nat.eqb_spec k i); [congruence|ring].
Qed.

(** M V M^T. *)
Lemma det_congruence n M V : det_n n (fun i j => sum_n n (fun a => sum_n n (fun c => M i a * V a c * M j c))) =
  det_n n M * det_n n M * det_n n V.
Proof.
  rewrite (det_ext n _ (mul n M (mul n V (fun i j => M j i)))).
  - rewrite !det_mul, det_transpose. ring.
  - intros i j Hi Hj. unfold mul. apply sum_n_ext. intros a Ha. rewrite <- sum_n_scale.
    apply sum_n_ext. intros; ring.
Qed.

(** ---- positive matrices have positive determinants ---- *)
Definition quad (n : nat) (A : Mat) (v : nat -> R) : R := sum_n n (fun i => sum_n n (fun j => v i * A i j * v j)).

(** Rows 1 .. m with a multiple of row 0 taken away, so that column 0 is cleared. *)
Definition reduced (A : Mat) (m : nat) : Mat := fun i j =>
  if (Nat.leb 1 i && Nat.leb i m)%bool then A i j - A i 0%nat / A 0%nat 0%nat * A 0%nat j else A i j.

Lemma reduce_det n A m : (m < n)%nat -> det_n n A = det_n n (reduced A m).
Proof.
  intros Hm. induction m as [|m IH].
  - apply det_ext. intros i j Hi Hj. unfold reduced. destruct i; reflexivity.
  - rewrite IH by lia.
    rewrite <- (add_multiple _ _ (det_alternating n) (reduced A m) 0 (S m) (- (A (S m) 0%nat / A 0%nat 0%nat))) by lia.
    apply det_ext. intros i j Hi Hj. unfold upd, reduced.
    destruct (Nat.eqb_spec i (S m)) as [->|N].
    + replace (Nat.leb (S m) m) with false by (symmetry; apply Nat.leb_gt; lia).
      replace (Nat.leb (S m) (S m)) with true by (symmetry; apply Nat.leb_le; lia). cbn [Nat.leb andb]. lra.
    + replace (Nat.leb i (S m)) with (Nat.leb i m); auto.
      destruct (Nat.leb_spec i m), (Nat.leb_spec i (S m)); auto; lia.
Qed.

Definition schur (A : Mat) : Mat := fun i j => A (S i) (S j) - A (S i) 0%nat / A 0%nat 0%nat * A 0%nat (S j).

Lemma schur_det n A : A 0%nat 0%nat <> 0 -> det_n (S n) A = A 0%nat 0%nat * det_n n (schur A).
Proof.
  intros Nz. rewrite (reduce_det (S n) A n) by lia. rewrite <- det_rows_columns. cbn [det_c].
  rewrite (sum_n_one (S n) _ 0%nat); [|lia|].
  - rewrite det_rows_columns. unfold reduced at 1. cbn [Nat.leb andb pow]. rewrite !Rmult_1_l. f_equal.
    apply det_ext. intros i j Hi Hj. unfold reduced, skip, schur. change (Nat.ltb i 0) with false. cbv iota.
    replace (Nat.leb (S i) n) with true by (symmetry; apply Nat.leb_le; lia). reflexivity.
  - intros i Hi N. unfold reduced at 1.
    replace (Nat.leb 1 i) with true by (symmetry; apply Nat.leb_le; lia).
    replace (Nat.leb i n) with true by (symmetry; apply Nat.leb_le; lia). cbn [andb]. field. auto.
Qed.

Lemma sum_n_first n (f : nat -> R) : sum_n (S n) f = f 0%nat + sum_n n (fun i => f (S i)).
Proof. induction n as [|n IH]; [cbn; lra|]. cbn [sum_n] in *. rewrite IH. lra. Qed.

Lemma quad_first n A v : quad (S n) A v = v 0%nat * A 0%nat 0%nat * v 0%nat +
  v 0%nat * sum_n n (fun j => A 0%nat (S j) * v (S j)) + v 0%nat * sum_n n (fun i => v (S i) * A (S i) 0%nat) +
  quad n (fun i j => A (S i) (S j)) (fun i => v (S i)).
Proof.
  unfold quad. rewrite sum_n_first, sum_n_first.
  rewrite (sum_n_ext n (fun i => sum_n (S n) (fun j => v (S i) * A (S i) j * v j))
     (fun i => v 0%nat * (v (S i) * A (S i) 0%nat) + sum_n n (fun j => v (S i) * A (S i) (S j) * v (S j)))).
  - rewrite sum_n_plus, <- !sum_n_scale.
    rewrite (sum_n_ext n (fun i => v 0%nat * A 0%nat (S i) * v (S i)) (fun i => v 0%nat * (A 0%nat (S i) * v (S i)))) by (intros; ring).
    lra.
  - intros i Hi. rewrite sum_n_first. ring.
Qed.

(** Completing the square. *)
Lemma quad_schur n A (v : nat -> R) : A 0%nat 0%nat <> 0 ->
  (forall i j, (i < S n)%nat -> (j < S n)%nat -> A i j = A j i) ->
  quad n (schur A) v = quad (S n) A (fun i => match i with
    | O => - sum_n n (fun j => A 0%nat (S j) * v j) / A 0%nat 0%nat
    | S i => v i end).
Proof.
  intros Nz Sy. rewrite quad_first. cbv beta iota.
  set (a := A 0%nat 0%nat) in *. set (q := sum_n n (fun j => A 0%nat (S j) * v j)).
  assert (E1 : sum_n n (fun i => v i * A (S i) 0%nat) = q).
  { apply sum_n_ext. intros i Hi. rewrite (Sy (S i) 0%nat) by lia. ring. }
  rewrite E1.
  assert (E2 : quad n (schur A) v = quad n (fun i j => A (S i) (S j)) v - q * q / a).
  { unfold quad, schur. fold a.
    rewrite (sum_n_ext n _ (fun i => sum_n n (fun j => v i * A (S i) (S j) * v j) + (- q / a) * (v i * A (S i) 0%nat))).
    - rewrite sum_n_plus, sum_n_scale, E1. unfold Rdiv. ring.
    - intros i Hi.
      rewrite (sum_n_ext n _ (fun j => v i * A (S i) (S j) * v j + (- (v i * A (S i) 0%nat) / a) * (A 0%nat (S j) * v j))).
      + rewrite sum_n_plus, sum_n_scale. fold q. unfold Rdiv. ring.
      + intros j Hj. unfold Rdiv. ring. }
  rewrite E2. fold q. change (fun i => v i) with v. field. auto.
Qed.

Lemma quad_zero n A (v : nat -> R) : (forall i, (i < n)%nat -> v i = 0) -> quad n A v = 0.
Proof.
  intros Z. unfold quad. rewrite (sum_n_ext n _ (fun _ => 0 * 0)).
  - rewrite sum_n_scale. ring.
  - intros i Hi. rewrite (sum_n_ext n _ (fun _ => 0 * 0)); [rewrite sum_n_scale; ring|].
    intros j Hj. rewrite (Z i) by auto. ring.
Qed.

Lemma quad_unit0 n A (v : nat -> R) : (forall i, (0 < i < S n)%nat -> v i = 0) ->
  quad (S n) A v = v 0%nat * A 0%nat 0%nat * v 0%nat.
Proof.
  intros Z. rewrite quad_first, quad_zero by (intros; apply Z; lia).
  rewrite (sum_n_ext n (fun j => A 0%nat (S j) * v (S j)) (fun _ => 0 * 0)) by (intros; rewrite Z by lia; ring).
  rewrite (sum_n_ext n (fun i => v (S i) * A (S i) 0%nat) (fun _ => 0 * 0)) by (intros; rewrite Z by lia; ring).
  rewrite sum_n_scale. ring.
Qed.

Lemma det_positive n : forall A,
  (forall i j, (i < n)%nat -> (j < n)%nat -> A i j = A j i) ->
  (forall v, (exists i, (i < n)%nat /\ v i <> 0) -> 0 < quad n A v) -> 0 < det_n n A.
Proof.
  induction n as [|n IH]; intros A Sy P; [cbn; lra|].
  assert (Pa : 0 < A 0%nat 0%nat).
  { assert (Q : 0 < quad (S n) A (unit_row 0)).
    { apply P. exists 0%nat. split; [lia|]. unfold unit_row. cbn. lra. }
    rewrite quad_unit0 in Q.
    - unfold unit_row in Q. cbn in Q. lra.
    - intros i Hi. unfold unit_row. destruct (Nat.eqb_spec i 0); [lia|auto]. }
  rewrite schur_det by lra. apply Rmult_lt_0_compat; auto. apply IH.
  - intros i j Hi Hj. unfold schur. rewrite (Sy (S i) (S j)), (Sy (S i) 0%nat), (Sy 0%nat (S j)) by lia.
    unfold Rdiv. ring.
  - intros v (i & Hi & Ni). rewrite quad_schur by (auto; lra). apply P. exists (S i). split; [lia|auto].
Qed.

Lemma det_nonneg n : forall A,
  (forall i j, (i < n)%nat -> (j < n)%nat -> A i j = A j i) ->
  (forall v, 0 <= quad n A v) -> 0 <= det_n n A.
Proof.
  induction n as [|n IH]; intros A Sy P; [cbn; lra|].
  assert (Pa : 0 <= A 0%nat 0%nat).
  { pose proof (P (unit_row 0)) as Q. rewrite quad_unit0 in Q.
    - unfold unit_row in Q. cbn in Q. lra.
    - intros i Hi. unfold unit_row. destruct (Nat.eqb_spec i 0); [lia|auto]. }
  destruct (Req_dec (A 0%nat 0%nat) 0) as [Z|Nz].
  - (* a zero diagonal entry forces a zero row *)
    assert (Row : forall j, (j < S n)%nat -> A 0%nat j = 0).
    { intros j Hj. destruct j as [|j]; [auto|].
      destruct (Req_dec (A 0%nat (S j)) 0) as [|Nj]; auto. exfalso.
      set (d := A (S j) (S j)). set (b := A 0%nat (S j)) in *.
      assert (V : forall t, quad (S n) A (fun i => if Nat.eqb i 0 then t else unit_row (S j) i) = 2 * t * b + d).
      { intros t. rewrite quad_first. cbv beta iota. cbn [Nat.eqb]. rewrite Z.
        rewrite (sum_n_one n (fun j0 => A 0%nat (S j0) * unit_row (S j) (S j0)) j); [|lia|].
        2:{ intros i Hi N. unfold unit_row. destruct (Nat.eqb_spec (S i) (S j)); [lia|ring]. }
        rewrite (sum_n_one n (fun i => unit_row (S j) (S i) * A (S i) 0%nat) j); [|lia|].
        2:{ intros i Hi N. unfold unit_row. destruct (Nat.eqb_spec (S i) (S j)); [lia|ring]. }
        unfold quad. rewrite (sum_n_one n _ j); [|lia|].
        2:{ intros i Hi N. rewrite (sum_n_ext n _ (fun _ => 0 * 0)); [rewrite sum_n_scale; ring|].
            intros k Hk. unfold unit_row at 1. destruct (Nat.eqb_spec (S i) (S j)); [lia|ring]. }
        rewrite (sum_n_one n _ j); [|lia|].
        2:{ intros i Hi N. unfold unit_row at 2. destruct (Nat.eqb_spec (S i) (S j)); [lia|ring]. }
        unfold unit_row. rewrite !Nat.eqb_refl. rewrite (Sy (S j) 0%nat) by lia. fold b d. ring. }
      pose proof (P (fun i => if Nat.eqb i 0 then - (d + 1) / (2 * b) else unit_row (S j) i)) as Q.
      rewrite V in Q. replace (2 * (- (d + 1) / (2 * b)) * b + d) with (-1) in Q by (field; auto). lra. }
    cbn [det_n]. rewrite (sum_n_ext (S n) _ (fun _ => 0 * 0)).
    + rewrite sum_n_scale. lra.
    + intros t Ht. rewrite Row by auto. ring.
  - rewrite schur_det by lra. apply Rmult_le_pos; auto. apply IH.
    + intros i j Hi Hj. unfold schur. rewrite (Sy (S i) (S j)), (Sy (S i) 0%nat), (Sy 0%nat (S j)) by lia.
      unfold Rdiv. ring.
    + intros v. rewrite quad_schur by (auto; lra). apply P.
Qed.
