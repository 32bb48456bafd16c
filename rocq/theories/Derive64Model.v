(** Model of the derived variables of a hit (xboa/hit/_hit.py 561-653, 800-820) in double precision.

    As in HitPyModel; the powers are those of the argument [L] (see Shell64Model).  Simplified: phi and pphi (atan2),
    weight (C10) and the name '' are left out; the value given to a setter is a double. *)
From Coq Require Import ZArith List Bool String.
From Flocq Require Import BinarySingleNaN.
From Verif Require Import Num WeightModel HitcoreModel FloatModel Bin64Model Shell64Model File64Model.
Import ListNotations.
Open Scope string_scope.

Notation fopp := (Bopp (prec := prec64) (emax := emax64)).

Inductive DErr := DZeroDivision | DFloatingPoint | DMath (e : FErr).

(** Python float division. *)
Definition py_div64 (a b : b64) : DErr + b64 := if feq b fzero then inl DZeroDivision else inr (fdiv a b).

Definition lift {A} (r : FErr + A) : DErr + A := match r with inl e => inl (DMath e) | inr a => inr a end.

Section Pow.
  Variable L : PowLib.

  (** a**2 + b**2, as in 567, 575, 581-583. *)
  Definition sum_sq (a b : b64) : FErr + b64 :=
    match py_pow (pow_two L) a with
    | inl e => inl e
    | inr x => match py_pow (pow_two L) b with inl e => inl e | inr y => inr (fadd x y) end
    end.
  (** 565-567, 573-575: (a**2 + b**2)**0.5. *)
  Definition hypot64 (a b : b64) : FErr + b64 :=
    match sum_sq a b with inl e => inl e | inr s => py_pow (pow_half L) s end.
  (** 561-563, 601-603: (a**2 + b**2 + c**2)**0.5. *)
  Definition norm64 (a b c : b64) : FErr + b64 :=
    match sum_sq a b with
    | inl e => inl e
    | inr s => match py_pow (pow_two L) c with inl e => inl e | inr z => py_pow (pow_half L) (fadd s z) end
    end.

  (** 561-619, 800-801, 817-819; the outer option is "name not in the table". *)
  Definition derived64 (h : FHit) (k : string) : option (DErr + b64) :=
    if String.eqb k "p" then Some (lift (norm64 (fg h Vpx) (fg h Vpy) (fg h Vpz)))
    else if String.eqb k "r" then Some (lift (hypot64 (fg h Vx) (fg h Vy)))
    else if String.eqb k "pt" then Some (lift (hypot64 (fg h Vpx) (fg h Vpy)))
    else if String.eqb k "x'" then Some (py_div64 (fg h Vpx) (fg h Vpz))
    else if String.eqb k "y'" then Some (py_div64 (fg h Vpy) (fg h Vpz))
    else if String.eqb k "t'" then Some (py_div64 (fopp (fg h Venergy)) (fg h Vpz))
    else if String.eqb k "ct'" then Some (py_div64 (fopp (fg h Venergy)) (fg h Vpz))
    else if String.eqb k "r'" then
      Some (match lift (hypot64 (fg h Vpx) (fg h Vpy)) with inl e => inl e | inr pt => py_div64 pt (fg h Vpz) end)
    else if String.eqb k "spin" then Some (lift (norm64 (fg h Vsx) (fg h Vsy) (fg h Vsz)))
    else if String.eqb k "ct" then Some (inr (fmul (fg h Vt) c_light64))
    else if String.eqb k "r_squared" then Some (lift (sum_sq (fg h Vx) (fg h Vy)))
    else if String.eqb k "z'" then Some (inr fone)
    else if String.eqb k "kinetic_energy" then Some (inr (fsub (fg h Venergy) (fg h Vmass)))
    else if String.eqb k "l_kin" then Some (inr (fsub (fmul (fg h Vx) (fg h Vpy)) (fmul (fg h Vy) (fg h Vpx))))
    else None.
End Pow.

(** 636-644: set_xP and set_yP; [tiny] is 1e-9. *)
Definition set_slope64 (v : DblVar) (x : b64) (h : FHit) : FHit * option DErr :=
  if flt (fabs (fg h Vpz)) tiny then (h, Some DFloatingPoint) else (fs h v (fmul x (fg h Vpz)), None).

(** 646-653: set_tP. *)
Definition set_tP64 (x : b64) (h : FHit) : FHit * option DErr :=
  if flt (fabs (fg h Vpz)) tiny then (h, Some DFloatingPoint)
  else
    let h1 := fs h Venergy (fmul (fopp x) (fg h Vpz)) in
    let h2 := if flt (fg h1 Vpz) fzero then
                let h' := fs h1 Venergy (fmul (fg h1 Venergy) (b64_of_Z (-1))) in
                fs h' Vpz (fmul (fg h' Vpz) (b64_of_Z (-1)))
              else h1 in
    if flt (fg h2 Venergy) (fg h2 Vmass) then (h2, Some DFloatingPoint) else (h2, None).

(** 622-624: set_ct; 613-615: set_ek. *)
Definition set_ct64 (x : b64) (h : FHit) : FHit * option DErr := (fs h Vt (fdiv x c_light64), None).
Definition set_ek64 (x : b64) (h : FHit) : FHit * option DErr := (fs h Venergy (fadd x (fg h Vmass)), None).

(** 820: the table of derived variables that can be set, without p (C92). *)
Definition derived_set64 (h : FHit) (k : string) (x : b64) : option (FHit * option DErr) :=
  if String.eqb k "x'" then Some (set_slope64 Vpx x h)
  else if String.eqb k "y'" then Some (set_slope64 Vpy x h)
  else if String.eqb k "t'" then Some (set_tP64 x h)
  else if String.eqb k "ct" then Some (set_ct64 x h)
  else if String.eqb k "kinetic_energy" then Some (set_ek64 x h)
  else None.
