(** Vocabulary for the decoupling of transfer matrices. *)
From Coq Require Import Reals List Arith.
From Verif Require Import Num HitPySpec CommonSpec Cplx.
Open Scope R_scope.

(** B is the inverse of A. *)
Definition c_inverse (n : nat) (A B : CMat) : Prop :=
  ceqm n (cmm n A B) c_one /\ ceqm n (cmm n B A) c_one.

(** numpy.linalg.inv for matrices of size n: finds the inverse if there is one. *)
Definition finds_inverses (n : nat) (inv : CMat -> option CMat) : Prop :=
  forall A B, c_inverse n A B -> exists C, inv A = Some C /\ c_inverse n A C.

(** numpy.linalg.eig of a real matrix without real eigenvalues: eigenvectors are columns,
    linearly independent; conjugate pairs are neighbours. *)
Definition eigen_pairs (n : nat) (m : nat -> nat -> R) (lam : nat -> Cx) (E : CMat) : Prop :=
  ceqm (2 * n) (cmm (2 * n) (fun i j => c_of (m i j)) E) (fun i j => cmul (E i j) (lam j)) /\
  (exists F, c_inverse (2 * n) E F) /\
  forall i, (i < n)%nat ->
    lam (2 * i + 1)%nat = cconj (lam (2 * i)%nat) /\
    forall p, (p < 2 * n)%nat -> E p (2 * i + 1)%nat = cconj (E p (2 * i)%nat).

(** Motion that stays bounded: eigenvalues on the unit circle. *)
Definition stable (n : nat) (lam : nat -> Cx) : Prop :=
  forall i, (i < n)%nat ->
    fst (lam (2 * i)%nat) * fst (lam (2 * i)%nat) + snd (lam (2 * i)%nat) * snd (lam (2 * i)%nat) = 1.

(** The numbers the parameters of plane i are taken from are finite: eigenvector i has a
    component along coordinate 2i, and momentum and coordinate are out of phase. *)
Definition plane_finite (E : CMat) (i : nat) : Prop :=
  E (2 * i)%nat i <> c_of 0 /\ snd (cdiv (E (2 * i + 1)%nat i) (E (2 * i)%nat i)) <> 0.

(** Entries of cos(mu) 1 + sin(mu) [[alpha, beta], [-gamma, -alpha]], the transfer matrix of
    one period of a line with phase advance mu. *)
Definition rotation_block (mu beta alpha gamma : R) (p q : nat) : R :=
  match p, q with
  | O, O => cos mu + sin mu * alpha
  | O, _ => sin mu * beta
  | _, O => - sin mu * gamma
  | _, _ => cos mu - sin mu * alpha
  end.

(** m does not couple planes: entries outside the two by two diagonal blocks are 0. *)
Definition uncoupled (n : nat) (m : nat -> nat -> R) : Prop :=
  forall p q, (p < 2 * n)%nat -> (q < 2 * n)%nat -> (p / 2)%nat <> (q / 2)%nat -> m p q = 0.
