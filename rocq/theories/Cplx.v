(** Complex numbers as pairs of reals, and n by n matrices of them. *)
From Coq Require Import Reals Lia Lra Ring Field Setoid Morphisms Arith.
Open Scope R_scope.

Definition Cx := (R * R)%type.
Definition c_re (z : Cx) : R := fst z.
Definition c_im (z : Cx) : R := snd z.
Definition c_of (x : R) : Cx := (x, 0).
Definition c_i : Cx := (0, 1).
Definition cadd (a b : Cx) : Cx := (fst a + fst b, snd a + snd b).
Definition copp (a : Cx) : Cx := (- fst a, - snd a).
Definition csub (a b : Cx) : Cx := cadd a (copp b).
Definition cmul (a b : Cx) : Cx := (fst a * fst b - snd a * snd b, fst a * snd b + snd a * fst b).
Definition cinv (a : Cx) : Cx :=
  (fst a / (fst a * fst a + snd a * snd a), - snd a / (fst a * fst a + snd a * snd a)).
Definition cdiv (a b : Cx) : Cx := cmul a (cinv b).
Definition cconj (a : Cx) : Cx := (fst a, - snd a).

Declare Scope cx_scope.
Delimit Scope cx_scope with cx.
Infix "+" := cadd : cx_scope.
Infix "*" := cmul : cx_scope.
Infix "-" := csub : cx_scope.
Infix "/" := cdiv : cx_scope.
Notation "- a" := (copp a) : cx_scope.

Lemma cx_eq (a b : Cx) : fst a = fst b -> snd a = snd b -> a = b.
Proof. destruct a, b; simpl; congruence. Qed.

Lemma cx_ring : ring_theory (c_of 0) (c_of 1) cadd cmul csub copp eq.
Proof.
  constructor; intros; apply cx_eq; unfold cadd, cmul, csub, copp, c_of; simpl; try ring; reflexivity.
Qed.

Lemma cx_norm (a : Cx) : a <> c_of 0 -> fst a * fst a + snd a * snd a <> 0.
Proof.
  intros H E. apply H. apply cx_eq; unfold c_of; simpl; nra.
Qed.

Lemma cx_field : field_theory (c_of 0) (c_of 1) cadd cmul csub copp cdiv cinv eq.
Proof.
  constructor.
  - exact cx_ring.
  - intros H. injection H. lra.
  - reflexivity.
  - intros a H. apply cx_norm in H. apply cx_eq; unfold cmul, cinv, c_of; simpl; field; auto.
Qed.

Add Field cx_f : cx_field.

Lemma cconj_add a b : cconj (cadd a b) = cadd (cconj a) (cconj b).
Proof. apply cx_eq; unfold cconj, cadd; simpl; ring. Qed.
Lemma cconj_mul a b : cconj (cmul a b) = cmul (cconj a) (cconj b).
Proof. apply cx_eq; unfold cconj, cmul; simpl; ring. Qed.
Lemma cconj_conj a : cconj (cconj a) = a.
Proof. apply cx_eq; unfold cconj; simpl; ring. Qed.

(** ---- sums and matrices ---- *)
Notation CMat := (nat -> nat -> Cx).

Fixpoint csum (n : nat) (f : nat -> Cx) : Cx :=
  match n with O => c_of 0 | S k => cadd (csum k f) (f k) end.
Definition cmm (n : nat) (A B : CMat) : CMat := fun i j => csum n (fun k => cmul (A i k) (B k j)).
Definition c_one : CMat := fun i j => if Nat.eqb i j then c_of 1 else c_of 0.
Definition ceqm (n : nat) (A B : CMat) : Prop := forall i j, (i < n)%nat -> (j < n)%nat -> A i j = B i j.
Definition c_diag (d : nat -> Cx) : CMat := fun i j => if Nat.eqb i j then d i else c_of 0.

Lemma csum_ext n f g : (forall i, (i < n)%nat -> f i = g i) -> csum n f = csum n g.
Proof. induction n as [|n IH]; intros H; cbn [csum]; [auto|]. rewrite IH, H; auto. Qed.
Lemma csum_zero n f : (forall i, (i < n)%nat -> f i = c_of 0) -> csum n f = c_of 0.
Proof. induction n as [|n IH]; intros H; cbn [csum]; [auto|]. rewrite IH, H; auto. ring. Qed.
Lemma csum_add n f g : csum n (fun i => cadd (f i) (g i)) = cadd (csum n f) (csum n g).
Proof. induction n as [|n IH]; cbn [csum]; [ring|]. rewrite IH. ring. Qed.
Lemma csum_mul n a f : csum n (fun i => cmul a (f i)) = cmul a (csum n f).
Proof. induction n as [|n IH]; cbn [csum]; [ring|]. rewrite IH. ring. Qed.
Lemma csum_swap n m (f : nat -> nat -> Cx) : csum n (fun i => csum m (fun j => f i j)) = csum m (fun j => csum n (fun i => f i j)).
Proof.
  induction n as [|n IH]; cbn [csum]; [symmetry; apply csum_zero; auto|]. rewrite IH, <- csum_add. reflexivity.
Qed.
Lemma csum_one n f k : (k < n)%nat -> (forall i, (i < n)%nat -> i <> k -> f i = c_of 0) -> csum n f = f k.
Proof.
  induction n as [|n IH]; intros Hk H; [lia|]. cbn [csum]. destruct (Nat.eq_dec k n) as [->|N].
  - rewrite csum_zero; [ring|]. intros i Hi. apply H; lia.
  - rewrite IH, (H n); auto; [ring|lia].
Qed.
(** Only two neighbours contribute. *)
Lemma csum_pair n f i : (i < n)%nat -> (forall k, (k < 2 * n)%nat -> (k / 2)%nat <> i -> f k = c_of 0) ->
  csum (2 * n) f = cadd (f (2 * i)%nat) (f (2 * i + 1)%nat).
Proof.
  induction n as [|n IH]; intros Hi H; [lia|].
  replace (2 * S n)%nat with (S (S (2 * n))) by lia. cbn [csum].
  assert (D1 : (2 * n / 2 = n)%nat) by (rewrite Nat.mul_comm; apply Nat.div_mul; lia).
  assert (D2 : (S (2 * n) / 2 = n)%nat).
  { replace (S (2 * n)) with (1 + n * 2)%nat by lia. rewrite Nat.div_add by lia. reflexivity. }
  destruct (Nat.eq_dec i n) as [->|N].
  - rewrite csum_zero.
    + replace (2 * n + 1)%nat with (S (2 * n)) by lia. ring.
    + intros k Hk. apply H; [lia|]. intros E.
      assert (k / 2 < n)%nat by (apply Nat.div_lt_upper_bound; lia). lia.
  - rewrite IH by (try lia; intros k Hk; apply H; lia).
    rewrite (H (2 * n)%nat), (H (S (2 * n))) by lia. ring.
Qed.
Lemma cconj_sum n f : cconj (csum n f) = csum n (fun i => cconj (f i)).
Proof.
  induction n as [|n IH]; cbn [csum]; [apply cx_eq; unfold cconj, c_of; simpl; ring|].
  rewrite cconj_add, IH. reflexivity.
Qed.

#[global] Instance ceqm_equiv n : Equivalence (ceqm n).
Proof.
  split.
  - intros A i j _ _. reflexivity.
  - intros A B H i j Hi Hj. symmetry. auto.
  - intros A B C H1 H2 i j Hi Hj. rewrite H1, H2; auto.
Qed.
#[global] Instance cmm_proper n : Proper (ceqm n ==> ceqm n ==> ceqm n) (cmm n).
Proof. intros A A' HA B B' HB i j Hi Hj. apply csum_ext. intros k Hk. rewrite HA, HB; auto. Qed.

Lemma cmm_assoc n A B C : ceqm n (cmm n (cmm n A B) C) (cmm n A (cmm n B C)).
Proof.
  intros i j Hi Hj. unfold cmm.
  rewrite (csum_ext n _ (fun k => csum n (fun l => cmul (cmul (A i l) (B l k)) (C k j)))).
  2:{ intros k Hk. transitivity (cmul (C k j) (csum n (fun l => cmul (A i l) (B l k)))); [ring|].
      rewrite <- csum_mul. apply csum_ext. intros; ring. }
  rewrite csum_swap. apply csum_ext. intros l Hl. rewrite <- csum_mul. apply csum_ext. intros; ring.
Qed.
Lemma cmm_one_l n A : ceqm n (cmm n c_one A) A.
Proof.
  intros i j Hi Hj. unfold cmm. rewrite (csum_one n _ i); auto.
  - unfold c_one. rewrite Nat.eqb_refl. ring.
  - intros k Hk N. unfold c_one. destruct (Nat.eqb_spec i k); [congruence|ring].
Qed.
Lemma cmm_one_r n A : ceqm n (cmm n A c_one) A.
Proof.
  intros i j Hi Hj. unfold cmm. rewrite (csum_one n _ j); auto.
  - unfold c_one. rewrite Nat.eqb_refl. ring.
  - intros k Hk N. unfold c_one. destruct (Nat.eqb_spec k j); [congruence|ring].
Qed.
Lemma cmm_diag n A d i j : (j < n)%nat -> cmm n A (c_diag d) i j = cmul (A i j) (d j).
Proof.
  intros Hj. unfold cmm. rewrite (csum_one n _ j); auto.
  - unfold c_diag. rewrite Nat.eqb_refl. ring.
  - intros k Hk N. unfold c_diag. destruct (Nat.eqb_spec k j); [congruence|ring].
Qed.
