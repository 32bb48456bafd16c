(** Algebra of n by n matrices given as functions. *)
From Coq Require Import Reals List Bool Lia Lra Setoid Morphisms.
From Verif Require Import Num HitPySpec CommonProofs GridProofs EllipseModel DetProofs.
Open Scope R_scope.

Definition eqm (n : nat) (A B : Mat) : Prop := forall i j, (i < n)%nat -> (j < n)%nat -> A i j = B i j.
Definition tr (A : Mat) : Mat := fun i j => A j i.
Definition scale (a : R) (A : Mat) : Mat := fun i j => a * A i j.
Definition diag (d : nat -> R) : Mat := fun i j => if Nat.eqb i j then d i else 0.

#[global] Instance eqm_equiv n : Equivalence (eqm n).
Proof.
  split.
  - intros A i j _ _. reflexivity.
  - intros A B H i j Hi Hj. symmetry. auto.
  - intros A B C H1 H2 i j Hi Hj. rewrite H1, H2; auto.
Qed.

#[global] Instance mul_proper n : Proper (eqm n ==> eqm n ==> eqm n) (mul n).
Proof.
  intros A A' HA B B' HB i j Hi Hj. apply sum_n_ext. intros k Hk. rewrite HA, HB; auto.
Qed.

#[global] Instance tr_proper n : Proper (eqm n ==> eqm n) tr.
Proof. intros A A' HA i j Hi Hj. apply HA; auto. Qed.

#[global] Instance scale_proper n : Proper (eq ==> eqm n ==> eqm n) scale.
Proof. intros a a' -> A A' HA i j Hi Hj. unfold scale. rewrite HA; auto. Qed.

Lemma mul_assoc n A B C : eqm n (mul n (mul n A B) C) (mul n A (mul n B C)).
Proof.
  intros i j Hi Hj. unfold mul.
  rewrite (sum_n_ext n _ (fun k => sum_n n (fun l => A i l * B l k * C k j))).
  2:{ intros k Hk. rewrite Rmult_comm, <- sum_n_scale. apply sum_n_ext. intros; ring. }
  rewrite sum_n_swap. apply sum_n_ext. intros l Hl. rewrite <- sum_n_scale. apply sum_n_ext. intros; ring.
Qed.

Lemma mul_one_l n A : eqm n (mul n one A) A.
Proof.
  intros i j Hi Hj. unfold mul. rewrite (sum_n_one n _ i); auto.
  - unfold one, unit_row. rewrite Nat.eqb_refl. ring.
  - intros k Hk N. unfold one, unit_row. destruct (Nat.eqb_spec k i); [congruence|ring].
Qed.

Lemma mul_one_r n A : eqm n (mul n A one) A.
Proof.
  intros i j Hi Hj. unfold mul. rewrite (sum_n_one n _ j); auto.
  - unfold one, unit_row. rewrite Nat.eqb_refl. ring.
  - intros k Hk N. unfold one, unit_row. destruct (Nat.eqb_spec j k); [congruence|ring].
Qed.

Lemma tr_mul n A B : eqm n (tr (mul n A B)) (mul n (tr B) (tr A)).
Proof. intros i j Hi Hj. unfold tr, mul. apply sum_n_ext. intros; ring. Qed.

Lemma tr_tr n A : eqm n (tr (tr A)) A.
Proof. intros i j _ _. reflexivity. Qed.

Lemma tr_one n : eqm n (tr one) one.
Proof. intros i j _ _. unfold tr, one, unit_row. rewrite Nat.eqb_sym. reflexivity. Qed.

Lemma tr_diag n d : eqm n (tr (diag d)) (diag d).
Proof. intros i j _ _. unfold tr, diag. destruct (Nat.eqb_spec j i), (Nat.eqb_spec i j); congruence. Qed.

Lemma mul_diag n A d i j : (i < n)%nat -> (j < n)%nat -> mul n A (diag d) i j = A i j * d j.
Proof.
  intros Hi Hj. unfold mul. rewrite (sum_n_one n _ j); auto.
  - unfold diag. rewrite Nat.eqb_refl. ring.
  - intros k Hk N. unfold diag. destruct (Nat.eqb_spec k j); [congruence|ring].
Qed.

Lemma diag_mul n A d i j : (i < n)%nat -> (j < n)%nat -> mul n (diag d) A i j = d i * A i j.
Proof.
  intros Hi Hj. unfold mul. rewrite (sum_n_one n _ i); auto.
  - unfold diag. rewrite Nat.eqb_refl. ring.
  - intros k Hk N. unfold diag. destruct (Nat.eqb_spec i k); [congruence|ring].
Qed.

Lemma diag_diag n d e : eqm n (mul n (diag d) (diag e)) (diag (fun i => d i * e i)).
Proof.
  intros i j Hi Hj. rewrite diag_mul by auto. unfold diag. destruct (Nat.eqb_spec i j); ring.
Qed.

Lemma mul_scale_l n a A B : eqm n (mul n (scale a A) B) (scale a (mul n A B)).
Proof.
  intros i j Hi Hj. unfold mul, scale. rewrite <- sum_n_scale. apply sum_n_ext. intros; ring.
Qed.
Lemma mul_scale_r n a A B : eqm n (mul n A (scale a B)) (scale a (mul n A B)).
Proof.
  intros i j Hi Hj. unfold mul, scale. rewrite <- sum_n_scale. apply sum_n_ext. intros; ring.
Qed.
Lemma tr_scale n a A : eqm n (tr (scale a A)) (scale a (tr A)).
Proof. intros i j _ _. reflexivity. Qed.
Lemma scale_scale n a b A : eqm n (scale a (scale b A)) (scale (a * b) A).
Proof. intros i j _ _. unfold scale. ring. Qed.

Lemma det_eqm n A B : eqm n A B -> det_n n A = det_n n B.
Proof. apply det_ext. Qed.

Lemma det_scale n a A : det_n n (scale a A) = a ^ n * det_n n A.
Proof.
  transitivity (det_n n (mul n (diag (fun _ => a)) A)).
  - apply det_ext. intros i j Hi Hj. rewrite diag_mul; auto.
  - rewrite det_mul. f_equal. clear A. induction n as [|n IH]; [reflexivity|].
    cbn [det_n]. rewrite (sum_n_one (S n) _ 0%nat); [|lia|].
    + rewrite (det_ext n _ (diag (fun _ => a))).
      * rewrite IH. unfold diag. cbn. ring.
      * intros i j Hi Hj. unfold diag. cbn [Nat.ltb Nat.leb Nat.eqb]. reflexivity.
    + intros i Hi N. unfold diag at 1. destruct (Nat.eqb_spec 0 i); [lia|ring].
Qed.

(** A combination of the rows of a matrix with determinant not 0 is 0 only trivially. *)
Lemma rows_independent n A (r : nat -> R) : det_n n A <> 0 ->
  (forall j, (j < n)%nat -> sum_n n (fun k => r k * A k j) = 0) -> forall i, (i < n)%nat -> r i = 0.
Proof.
  intros D Z i Hi. pose proof (det_alternating n) as H.
  assert (E : forall m, (m <= n)%nat -> det_n n (upd A i (fun j => sum_n m (fun k => r k * A k j))) =
     sum_n m (fun k => r k * det_n n (upd A i (A k)))).
  { induction m as [|m IH]; intros Hm; cbn [sum_n]; [apply (alt_zero n _ H); auto|].
    rewrite (alt_plus n _ H) by auto. rewrite (alt_scale n _ H) by auto. rewrite IH by lia. reflexivity. }
  assert (E0 : det_n n (upd A i (fun j => sum_n n (fun k => r k * A k j))) = 0).
  { rewrite (det_ext n _ (upd A i (fun _ => 0))); [apply (alt_zero n _ H); auto|].
    intros a b Ha Hb. unfold upd. destruct (Nat.eqb a i); auto. }
  rewrite E in E0 by auto. rewrite (sum_n_one n _ i) in E0; auto.
  - rewrite (upd_same n _ H) in E0. apply Rmult_integral in E0. tauto.
  - intros k Hk N.
    rewrite (alt_ext n _ H (upd A i (A k)) (upd (upd A k (A k)) i (A k))).
    + rewrite (equal_rows n _ H); auto. ring.
    + intros a b Ha Hb. unfold upd. destruct (Nat.eqb_spec a i); auto. destruct (Nat.eqb_spec a k); subst; auto.
Qed.

(** A left inverse is a right inverse. *)
Lemma left_right_inverse n A B : eqm n (mul n B A) one -> eqm n (mul n A B) one.
Proof.
  intros H.
  assert (D : det_n n A <> 0).
  { intros Z. pose proof (det_eqm n _ _ H) as E. rewrite det_mul, det_one, Z in E. lra. }
  intros i j Hi Hj.
  assert (K : mul n A B i j - one i j = 0).
  { apply (rows_independent n A (fun k => mul n A B i k - one i k) D); auto.
    intros l Hl.
    rewrite (sum_n_ext n _ (fun k => mul n A B i k * A k l + (-1) * (one i k * A k l))) by (intros; ring).
    rewrite sum_n_plus, sum_n_scale.
    fold (mul n (mul n A B) A i l). fold (mul n one A i l).
    rewrite (mul_assoc n A B A i l) by auto.
    assert (E : eqm n (mul n A (mul n B A)) A) by (rewrite H; apply mul_one_r).
    rewrite E, mul_one_l by auto. ring. }
  lra.
Qed.

(** Two inverses agree. *)
Lemma inverse_unique n A B C : eqm n (mul n B A) one -> eqm n (mul n A C) one -> eqm n B C.
Proof.
  intros H1 H2.
  assert (E : eqm n (mul n (mul n B A) C) C) by (rewrite H1; apply mul_one_l).
  rewrite mul_assoc, H2, mul_one_r in E. exact E.
Qed.
