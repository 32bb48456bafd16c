(** Vocabulary for tracking with transfer matrices. *)
From Coq Require Import Reals List.
From Verif Require Import Num HitcoreModel HitPyModel HitPySpec MatrixModel.
Import ListNotations.
Open Scope R_scope.

(** The six coordinates of a hit: x, px, y, py, t, energy. *)
Definition coord_vars : list DblVar := [Vx; Vpx; Vy; Vpy; Vt; Venergy].
Definition coordinate (h : RHit) (i : nat) : R := h_dbl h (nth i coord_vars Vx).

(** The matrices are 6 by 6, the offsets have 6 entries, and there is one offset for each. *)
Definition well_shaped (t : MatrixTracking) : Prop :=
  length (offset_list t) = length (tm_list t) /\
  (forall m, In m (tm_list t) -> square 6 m) /\
  (forall o, In o (offset_list t) -> length o = 6%nat) /\
  length (offset_in t) = 6%nat.

(** u_out = M (u_in - v_in) + v_out. *)
Definition transported (m : list (list R)) (v_in v_out : list R) (h out : RHit) : Prop :=
  forall i, (i < 6)%nat ->
    coordinate out i =
    sum_n 6 (fun j => ent m i j * (coordinate h j - nth j v_in 0)) + nth i v_out 0.

(** What is left of E^2 - m^2 for pz^2. *)
Definition pz_room (h : RHit) : R :=
  h_dbl h Venergy * h_dbl h Venergy - h_dbl h Vmass * h_dbl h Vmass
  - (h_dbl h Vpx * h_dbl h Vpx + h_dbl h Vpy * h_dbl h Vpy).

(** pz is set from the other components, forwards, if there is a solution. *)
Definition pz_set (h : RHit) : Prop :=
  (1 / 1000000 < pz_room h -> on_shell h /\ 0 < h_dbl h Vpz) /\
  (pz_room h <= 1 / 1000000 -> h_dbl h Vpz = 0).
