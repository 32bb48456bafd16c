(** Values of hits that are not stored, for geometric emittances in double precision: the divergences x' and y',
    xboa/hit/_hit.py 585-591, as in Derive64Model (derived64).  Other names are left out. *)
From Coq Require Import ZArith List Bool String.
From Flocq Require Import Core BinarySingleNaN.
From Verif Require Import Num WeightModel HitcoreModel BunchModel FloatModel Bin64Model Shell64Model Derive64Model Emit64Model.
Import ListNotations.
Open Scope string_scope.

(** _hit.py 585-587 and 589-591: px/pz and py/pz, ZeroDivisionError for pz = 0. *)
Definition slope64 (w : World64) (l : nat) (p : string) : option (PyVal B64Num) :=
  match hit_get w l p, hit_get w l "pz" with
  | Some (PFloat a), Some (PFloat c) => match py_div64 a c with inr x => Some (@PFloat B64Num x) | inl _ => None end
  | _, _ => None
  end.
Definition extra_slope (w : World64) (hits : list nat) (k : string) (l : nat) : option (PyVal B64Num) :=
  if String.eqb k "x'" then slope64 w l "px" else if String.eqb k "y'" then slope64 w l "py" else None.
