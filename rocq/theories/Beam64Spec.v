(** The emittance of a beam from its hits (C101): exact statistics and allowed errors. *)
From Coq Require Import Reals ZArith Bool String List.
From Flocq Require Import Core BinarySingleNaN.
From Verif Require Import Num WeightModel HitcoreModel PyLibModel BunchModel FloatModel FloatSpec.
Open Scope R_scope.

(** The exact covariance of two variables, from the numbers in the hits. *)
Definition true_cov (w : World B64Num) (hits : list nat) (q p : string) : R :=
  average64 w hits (fun l => (num64 w q l - average64 w hits (num64 w q)) * (num64 w p l - average64 w hits (num64 w p))).

(** The beam is near its axis: rho bounds how far, counted in widths, the beam is off the axis, times the rounding of n hits. *)
Definition near_axis (w : World B64Num) (hits : list nat) (rho : R) (v : string) : Prop :=
  units (2 * List.length hits + 3) * average64 w hits (fun l => Rabs (num64 w v l)) <= rho * sqrt (true_cov w hits v v).

(** The error of a covariance, relative to the widths. *)
Definition cov_error (n : nat) (rho : R) : R := 2 * units (2 * n + 5) + rho * rho.
