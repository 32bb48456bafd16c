(** Vocabulary for the statements about nd_newton_raphson. *)
From Coq Require Import Reals List.
From Verif Require Import HitPySpec CommonSpec.
Import ListNotations.
Open Scope R_scope.

(** Every value is within its tolerance. *)
Definition within_tolerance (tol y : list R) : Prop :=
  forall i, (i < List.length tol)%nat -> Rabs (nth i y 0) <= nth i tol 0.

(** A point and the points that differ from it in one coordinate each. *)
Definition star (n : nat) (pts : list (list R)) : Prop :=
  List.length pts = S n /\ (forall p, In p pts -> List.length p = n) /\
  (forall i k, (i < n)%nat -> (k < n)%nat -> k <> i -> nth k (nth (S i) pts []) 0 = nth k (hd [] pts) 0).

(** How far the i-th of these is from the first. *)
Definition arm (pts : list (list R)) (i : nat) : R := nth i (nth (S i) pts []) 0 - nth i (hd [] pts) 0.

(** The slope of the j-th value along the i-th coordinate. *)
Definition slope (f : list R -> list R) (pts : list (list R)) (j i : nat) : R :=
  (nth j (f (nth (S i) pts [])) 0 - nth j (f (hd [] pts)) 0) / arm pts i.

(** y = A x + c *)
Definition affine (n : nat) (A : list (list R)) (c : list R) (f : list R -> list R) : Prop :=
  forall x, List.length x = n -> List.length (f x) = n /\
    forall j, (j < n)%nat -> nth j (f x) 0 = sum_n n (fun k => ent A j k * nth k x 0) + nth j c 0.
