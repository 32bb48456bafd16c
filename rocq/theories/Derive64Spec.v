(** Derived variables in double precision (C96). *)
From Coq Require Import Reals ZArith Bool String List.
From Flocq Require Import Core BinarySingleNaN.
From Verif Require Import Num HitcoreModel FloatModel Bin64Spec Shell64Model Shell64Spec.
Import ListNotations.
Open Scope string_scope.
Open Scope R_scope.

(** The derived variables as they are defined for real numbers, in terms of the stored ones. *)
Definition meaning (h : FHit) : list (string * R) :=
  let g := of_hit h in
  let pt := sqrt (g Vpx * g Vpx + g Vpy * g Vpy) in
  [("p", sqrt (g Vpx * g Vpx + g Vpy * g Vpy + g Vpz * g Vpz)); ("r", sqrt (g Vx * g Vx + g Vy * g Vy)); ("pt", pt);
   ("spin", sqrt (g Vsx * g Vsx + g Vsy * g Vsy + g Vsz * g Vsz)); ("r_squared", g Vx * g Vx + g Vy * g Vy);
   ("ct", g Vt * (299792458 / 1000000)); ("z'", 1); ("kinetic_energy", g Venergy - g Vmass)].
Definition meaning_slopes (h : FHit) : list (string * R) :=
  let g := of_hit h in
  [("x'", g Vpx / g Vpz); ("y'", g Vpy / g Vpz); ("t'", - g Venergy / g Vpz); ("ct'", - g Venergy / g Vpz);
   ("r'", sqrt (g Vpx * g Vpx + g Vpy * g Vpy) / g Vpz)].

(** All stored numbers are zero or neither huge nor tiny. *)
Definition all_moderate (h : FHit) : Prop := forall v, moderate (h_dbl (N := B64Num) h v).

(** A double is a real number up to n roundings. *)
Definition right (n : R) (y : b64) (r : R) : Prop := finite y = true /\ Rabs (value y - r) <= n * / 2 ^ 53 * Rabs r.
