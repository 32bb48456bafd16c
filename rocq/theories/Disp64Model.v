(** Model of the dispersion of a bunch in double precision.
    Source: xboa/bunch/_bunch.py 970-984 (get_dispersion), 999-1014 (get_dispersion_prime).  The statistics are those of
    MomentModel over binary64.  Simplified: no covariance matrix is stored with set_covariance_matrix. *)
From Coq Require Import ZArith List Bool String.
From Flocq Require Import Core BinarySingleNaN.
From Verif Require Import Num WeightModel HitcoreModel PyLibModel HitPyModel BunchModel MomentModel EllipseModel FloatModel Bin64Model Emit64Model.
Import ListNotations.
Open Scope string_scope.

Section Dispersion64.
  Variable extra : World64 -> list nat -> string -> nat -> option (PyVal B64Num).

  (** _bunch.py 984: moment([v, E]) * mean(E) / moment([E, E]), from left to right. *)
  Definition dispersion64 (w : World64) (b : Bunch) (v : string) : MErr + b64 :=
    c <- moment extra no_fixed w b [v; "energy"] [] ;;
    m <- mean64 extra w b "energy" ;;
    e <- moment extra no_fixed w b ["energy"; "energy"] [] ;;
    div_py (fmul c m) e.

  (** _bunch.py 1013-1014: the same for the momentum variable of the axis; IndexError for other names. *)
  Definition dispersion_prime64 (w : World64) (b : Bunch) (axis : string) (geometric : bool) : MErr + b64 :=
    match momentum_variable axis geometric with
    | Some m => dispersion64 w b m
    | None => inl MOther
    end.
End Dispersion64.
