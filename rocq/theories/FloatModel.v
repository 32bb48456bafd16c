(** The numbers of the code as they are: IEEE 754 double precision, rounding to nearest even (Python
    floats and C++ doubles; one NaN).  The arithmetic is that of Flocq.  With this instance the
    definitions of WeightModel, HitcoreModel, BunchModel and MomentModel, which are written over any
    record of operations, compute what the code computes (assumption: the C++ compiler neither
    contracts nor reorders operations, and there is no extended precision). *)
From Coq Require Import ZArith Bool.
From Flocq Require Import Core BinarySingleNaN.
From Verif Require Import Num.

Definition prec64 : Z := 53.
Definition emax64 : Z := 1024.
Global Instance prec64_gt : Prec_gt_0 prec64 := eq_refl.
Global Instance prec64_lt : Prec_lt_emax prec64 emax64 := eq_refl.

Definition b64 : Type := binary_float prec64 emax64.
Definition b64_of_Z (z : Z) : b64 := binary_normalize prec64 emax64 _ _ mode_NE z 0 false.

Definition B64Num : NumOps :=
  mkNum b64 (B754_zero false) (b64_of_Z 1) (Bplus mode_NE) (Bminus mode_NE) (Bmult mode_NE) (Bdiv mode_NE)
    Beqb Bltb b64_of_Z.
