(** Emittance and Twiss parameters in double precision (C100). *)
From Coq Require Import Reals ZArith Bool String List.
From Flocq Require Import Core BinarySingleNaN.
From Verif Require Import Num FloatModel Bin64Spec Linear64Spec Shell64Spec.
Import ListNotations.
Open Scope R_scope.

Notation unit := (/ 2 ^ 53).

(** The determinant of a symmetric matrix of two rows is off by a few units of the sizes of its two terms. *)
Definition good_det (det : list (list b64) -> b64) : Prop :=
  forall a c d, usual a -> usual c -> usual d ->
    let x := value a * value d in let y := value c * value c in
    finite (det [[a; c]; [c; d]]) = true /\
    Rabs (value (det [[a; c]; [c; d]]) - (x - y)) <= 8 * unit * (Rabs x + y).

(** Square roots are right to two units in the last place; those of negative numbers are not numbers. *)
Definition good_root (pow : b64 -> b64 -> b64) : Prop :=
  forall x h, finite x = true -> finite h = true -> value h = 1 / 2 ->
    (0 <= value x -> within 900 (value x) -> right_to (fun z => pow z h) sqrt x) /\
    (value x < 0 -> is_nan (pow x h) = true).

(** How far from singular: 1 for no correlation, large if the variables are almost proportional. *)
Definition spread (a c d : R) : R := (a * d + c * c) / (a * d - c * c).

(** A number of everyday size, not zero. *)
Definition everyday (x : b64) : Prop := finite x = true /\ / 2 ^ 60 <= Rabs (value x) <= 2 ^ 60.

(** The position axes and their momenta. *)
Definition pairs : list (string * string) :=
  [("x", "px"); ("y", "py"); ("z", "pz"); ("t", "energy"); ("ct", "energy")]%string.
