(** Model of Hit.translate (xboa/hit/_hit.py 251-260) and Bunch.period_transformation (xboa/bunch/_bunch.py 562-578)
    in double precision.

    Simplified: the variables are those the core stores as doubles; a dictionary is the list of its items. *)
From Coq Require Import ZArith List Bool String.
From Flocq Require Import BinarySingleNaN.
From Verif Require Import Num WeightModel HitcoreModel FloatModel Bin64Model Shell64Model.
Import ListNotations.
Open Scope string_scope.

(** _hit.py 258-259. *)
Fixpoint move64 (d : list (DblVar * b64)) (h : FHit) : FHit :=
  match d with
  | [] => h
  | (k, v) :: r => move64 r (fs h k (fadd v (fg h k)))
  end.

(** _hit.py 251-260. *)
Definition translate64 (L : PowLib) (d : list (DblVar * b64)) (ms : string) (h : FHit) : FHit * ShRes :=
  mass_shell64 L (move64 d h) ms.

Inductive MErr := MZeroDivision | MOverflow | MValueError.

(** math.floor: an integer, exactly. *)
Definition floor64 (x : b64) : MErr + Z :=
  match x with
  | B754_zero _ => inr 0%Z
  | B754_infinity _ => inl MOverflow
  | B754_nan => inl MValueError
  | B754_finite s m e _ =>
      let z := if s then Zneg m else Zpos m in
      inr (if (0 <=? e)%Z then (z * 2 ^ e)%Z else (z / 2 ^ (- e))%Z)
  end.

Definition half64 : b64 := fdiv fone (b64_of_Z 2).

(** _bunch.py 575-578: one hit.  The integer is converted to double by the division. *)
Definition period64 (offset frequency : b64) (k : DblVar) (h : FHit) : FHit * option MErr :=
  let h1 := fs h k (fsub (fg h k) offset) in
  match floor64 (fadd (fmul (fg h1 k) frequency) half64) with
  | inl e => (h1, Some e)
  | inr z =>
      if feq frequency fzero then (h1, Some MZeroDivision)
      else (fs h1 k (fsub (fg h1 k) (fdiv (b64_of_Z z) frequency)), None)
  end.

(** _bunch.py 574: all hits, until one raises. *)
Fixpoint period_all64 (offset frequency : b64) (k : DblVar) (hs : list FHit) : list FHit * option MErr :=
  match hs with
  | [] => ([], None)
  | h :: r =>
      match period64 offset frequency k h with
      | (h', Some e) => (h' :: r, Some e)
      | (h', None) => let '(r', e) := period_all64 offset frequency k r in (h' :: r', e)
      end
  end.
