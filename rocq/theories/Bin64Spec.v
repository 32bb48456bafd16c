(** Histograms of double precision numbers (C91). *)
From Coq Require Import Reals ZArith List Bool.
From Flocq Require Import Core BinarySingleNaN.
From Verif Require Import FloatModel.
Import ListNotations.
Open Scope R_scope.

(** The value of a float, and whether it is neither infinite nor NaN. *)
Notation value := (B2R (prec := prec64) (emax := emax64)).
Notation finite := (is_finite (prec := prec64) (emax := emax64)).

(** A number, neither infinite nor NaN, of the half open interval. *)
Definition falls (lo hi x : b64) : bool :=
  finite x && (if Rle_dec (value lo) (value x) then true else false)
           && (if Rlt_dec (value x) (value hi) then true else false).

(** Edges that do not decrease. *)
Inductive rising : list b64 -> Prop :=
| rising_nil : rising []
| rising_one x : finite x = true -> rising [x]
| rising_cons x y l : finite x = true -> value x <= value y -> rising (y :: l) -> rising (x :: y :: l).

(** An event of a histogram: x, y and weight. *)
Record Event := { ex : b64; ey : b64; ew : b64 }.
(** Bin number p of the edges: its lower and its upper edge. *)
Definition in_bin (bins : list b64) (p : nat) (x : b64) : bool :=
  match nth_error bins p, nth_error bins (S p) with
  | Some lo, Some hi => falls lo hi x
  | _, _ => false
  end.
Definition in_cell (xb yb : list b64) (p q : nat) (e : Event) : bool := in_bin xb p (ex e) && in_bin yb q (ey e).

Definition count {A} (f : A -> bool) (l : list A) : nat := List.length (filter f l).
Fixpoint total {A} (f : A -> R) (l : list A) : R := match l with [] => 0 | a :: r => f a + total f r end.

(** The entry of a table. *)
Definition cell (m : list (list b64)) (p q : nat) : option b64 :=
  match nth_error m p with Some row => nth_error row q | None => None end.
