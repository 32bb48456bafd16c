(** Model of Hit.mass_shell_condition, Hit.get_p, Hit.set_p and Hit.check (xboa/hit/_hit.py 290-332, 561-563,
    630-638, 367-379) in double precision.

    Python computes x**0.5, x**1.5 and x**2 with the pow function of the C library, whose rounding IEEE 754 does
    not fix: the three functions are the argument [L].  As in HitPyModel, access to a name that the core stores
    is access to the stored member.

    Simplified: mass_shell_condition and check with their default tolerances; what check prints is left out;
    pow that underflows raises nothing. *)
From Coq Require Import ZArith List Bool String.
From Flocq Require Import BinarySingleNaN.
From Verif Require Import Num WeightModel HitcoreModel FloatModel Bin64Model.
Import ListNotations.
Open Scope string_scope.

Notation FHit := (Hit B64Num).
Notation fabs := (Babs (prec := prec64) (emax := emax64)).
Notation feq := (Beqb (prec := prec64) (emax := emax64)).
Notation is_fin := (is_finite (prec := prec64) (emax := emax64)).

(** x**0.5, x**1.5 and x**2 of the C library, the first two for x that is not negative. *)
Record PowLib := { pow_half : b64 -> b64; pow_three_halves : b64 -> b64; pow_two : b64 -> b64 }.

Inductive FErr := FIndexError | FOverflow | FValueError.

(** float_pow of CPython: OverflowError for an infinite result of a finite number. *)
Definition py_pow (f : b64 -> b64) (x : b64) : FErr + b64 :=
  if is_fin x && negb (is_fin (f x)) then inl FOverflow else inr (f x).

Definition fg (h : FHit) (v : DblVar) : b64 := h_dbl h v.
Definition fs (h : FHit) (v : DblVar) (x : b64) : FHit := hit_set_dbl (N := B64Num) h v x.

Section Pow.
  Variable L : PowLib.

  (** 561-563: get_p. *)
  Definition get_p64 (h : FHit) : FErr + b64 :=
    match py_pow (pow_two L) (fg h Vpx) with
    | inl e => inl e
    | inr x =>
        match py_pow (pow_two L) (fg h Vpy) with
        | inl e => inl e
        | inr y =>
            match py_pow (pow_two L) (fg h Vpz) with
            | inl e => inl e
            | inr z => py_pow (pow_half L) (fadd (fadd x y) z)
            end
        end
    end.

  (** 630-638: set_p; [None] is a complex number, see HitPyModel.set_p.  (The second get_p is not zero: pz is 1 then.) *)
  Definition set_p64 (h : FHit) (v : option b64) : FHit * option FErr :=
    match get_p64 h with
    | inl e => (h, Some e)
    | inr p =>
        let h1 := if feq p fzero then fs h Vpz fone else h in
        match get_p64 h1 with
        | inl e => (h1, Some e)
        | inr p1 =>
            match v with
            | Some x =>
                let scale := fdiv x p1 in
                let h2 := fs h1 Vpx (fmul (fg h1 Vpx) scale) in
                let h3 := fs h2 Vpy (fmul (fg h2 Vpy) scale) in
                (fs h3 Vpz (fmul (fg h3 Vpz) scale), None)
            | None => (fs h1 Vpx (b64_of_Z (-1)), Some FIndexError)
            end
        end
    end.

  (** What mass_shell_condition returns: None, True, False or an exception. *)
  Inductive ShRes := ShNone | ShTrue | ShFalse | ShErr (e : FErr).

  (** The literal 1.e-6. *)
  Definition micro : b64 := fdiv fone (b64_of_Z 1000000).

  (** 308-314, 315-321, 322-328: the branches for px, py and pz. *)
  Definition component (h : FHit) (v : DblVar) (val : b64) : FHit * ShRes :=
    if flt micro val then
      match py_pow (pow_three_halves L) (fabs val) with
      | inl e => (h, ShErr e)
      | inr w => (fs h v (fdiv w val), ShTrue)
      end
    else (fs h v fzero, ShFalse).

  (** 290-332: mass_shell_condition with the default tolerance. *)
  Definition mass_shell64 (h : FHit) (k : string) : FHit * ShRes :=
    let px := fg h Vpx in let py := fg h Vpy in let pz := fg h Vpz in
    let e := fg h Venergy in let m := fg h Vmass in
    if String.eqb k "" then (h, ShNone)
    else if String.eqb k "p" then
      let x := fmul (fsub e m) (fadd e m) in
      if flt x fzero then
        let (h', r) := set_p64 h None in (h', match r with Some er => ShErr er | None => ShTrue end)
      else
        match py_pow (pow_half L) x with
        | inl er => (h, ShErr er)
        | inr v => let (h', r) := set_p64 h (Some v) in (h', match r with Some er => ShErr er | None => ShTrue end)
        end
    else if String.eqb k "px" then
      component h Vpx (fsub (fsub (fsub (fmul e e) (fmul m m)) (fmul py py)) (fmul pz pz))
    else if String.eqb k "py" then
      component h Vpy (fsub (fsub (fsub (fmul e e) (fmul m m)) (fmul px px)) (fmul pz pz))
    else if String.eqb k "pz" then
      component h Vpz (fsub (fsub (fsub (fmul e e) (fmul m m)) (fmul px px)) (fmul py py))
    else if String.eqb k "energy" then
      match py_pow (pow_half L) (fadd (fadd (fadd (fmul m m) (fmul px px)) (fmul py py)) (fmul pz pz)) with
      | inl er => (h, ShErr er)
      | inr v => (fs h Venergy v, ShTrue)
      end
    else (h, ShErr FIndexError).

  (** xboa/common/_common.py 87: pdg_pid_to_mass; a literal is the double nearest to the quotient. *)
  Definition mass_table : list (Z * (Z * Z)) :=
    [(0, (0, 1)); (11, (510998910, 1000000000)); (12, (0, 1)); (13, (1056583668, 10000000)); (14, (0, 1));
     (22, (0, 1)); (111, (1349766, 10000)); (211, (13957018, 100000)); (321, (493667, 1000));
     (2112, (93956536, 100000)); (2212, (938271996, 1000000)); (1000010020, (18761239, 10000));
     (1000010030, (2809432, 1000)); (1000020030, (280941346, 100000)); (1000020040, (37284001, 10000));
     (130, (497614, 1000)); (310, (497614, 1000)); (311, (497614, 1000)); (3122, (1115683, 1000))]%Z.
  Fixpoint pid_mass (t : list (Z * (Z * Z))) (pid : Z) : option b64 :=
    match t with
    | [] => None
    | (k, (a, b)) :: r => if Z.eqb k pid then Some (fdiv (b64_of_Z a) (b64_of_Z b)) else pid_mass r pid
    end.

  (** round(x) of Python 3: to the nearest integer, ties to even. *)
  Definition py_round (x : b64) : FErr + Z :=
    match x with
    | B754_zero _ => inr 0%Z
    | B754_infinity _ => inl FOverflow
    | B754_nan => inl FValueError
    | B754_finite s m e _ =>
        let a := match e with
                 | Z0 | Zpos _ => (Zpos m * 2 ^ e)%Z
                 | Zneg _ =>
                     let d := (2 ^ (- e))%Z in
                     let q := (Zpos m / d)%Z in
                     let r := (Zpos m mod d)%Z in
                     if Z.ltb (2 * r) d then q
                     else if Z.ltb d (2 * r) then (q + 1)%Z
                     else if Z.even q then q else (q + 1)%Z
                 end in
        inr (if s then Z.opp a else a)
    end.

  (** The literal 1e-3. *)
  Definition milli : b64 := fdiv fone (b64_of_Z 1000).

  (** 377: abs(round(p**2 + mass**2) - round(energy**2)) > 1e-3 is that the two integers differ. *)
  Definition shell_test (h : FHit) : FErr + bool :=
    match get_p64 h with
    | inl e => inl e
    | inr p =>
        match py_pow (pow_two L) p with
        | inl e => inl e
        | inr p2 =>
            match py_pow (pow_two L) (fg h Vmass) with
            | inl e => inl e
            | inr m2 =>
                match py_round (fadd p2 m2) with
                | inl e => inl e
                | inr a =>
                    match py_pow (pow_two L) (fg h Venergy) with
                    | inl e => inl e
                    | inr e2 =>
                        match py_round e2 with
                        | inl e => inl e
                        | inr b => inr (Z.eqb a b)
                        end
                    end
                end
            end
        end
    end.

  (** 367-379: check with the default tolerance; [bad] is the list of bad pids. *)
  Definition check (bad : list Z) (h : FHit) : FErr + bool :=
    let pid := h_int h Ipid in
    match pid_mass mass_table (Z.abs pid) with
    | None => if existsb (Z.eqb pid) bad || Z.eqb pid 0 then shell_test h else inr false
    | Some m => if flt milli (fabs (fsub (fg h Vmass) m)) then inr false else shell_test h
    end.
End Pow.

(** One such library: the square root of IEEE 754, and products. *)
Definition plain : PowLib :=
  {| pow_half := Bsqrt mode_NE; pow_three_halves := fun x => fmul x (Bsqrt mode_NE x); pow_two := fun x => fmul x x |}.
