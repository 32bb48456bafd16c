(** Vocabulary for refined peaks. *)
From Coq Require Import Reals ZArith List Bool.
From Verif Require Import RefineModel.
Import ListNotations.
Open Scope R_scope.

(** Sum over points, and the sum of the squared residuals of a parabola. *)
Fixpoint total (f : R * R -> R) (pts : list (R * R)) : R :=
  match pts with [] => 0 | p :: r => f p + total f r end.
Definition residuals (p : R * R * R) (pts : list (R * R)) : R :=
  total (fun xy => (snd xy - parabola p (fst xy)) ^ 2) pts.
(** The parabola fits the points as well as any. *)
Definition least_squares (pts : list (R * R)) (p : R * R * R) : Prop :=
  forall q, residuals p pts <= residuals q pts.
Definition fits (fit : list (R * R) -> R * R * R) : Prop := forall pts, least_squares pts (fit pts).

(** The data around a peak: the points whose index is at most d away, the index counted from the peak. *)
Definition datum (data : list R) (i : nat) : R := nth i data 0.
Definition near (peak d : Z) (i : nat) : bool := Z.leb (Z.abs (Z.of_nat i - peak)) d.
Definition window (data : list R) (peak d : Z) : list (R * R) :=
  map (fun i => (IZR (Z.of_nat i - peak), datum data i)) (filter (near peak d) (seq 0 (length data))).

(** Root mean square deviation from the mean. *)
Definition sum_of (l : list R) : R := fold_right Rplus 0 l.
Definition mean (l : list R) : R := sum_of l / INR (length l).
Definition deviation (l : list R) : R :=
  sqrt (sum_of (map (fun y => (y - mean l) ^ 2) l) / INR (length l)).
Definition flat (l : list R) : Prop := forall a b, In a l -> In b l -> a = b.
(** The part of the window that the residuals are compared with: b points on either side of the
    peak - or of index d, when the window is cut short by the start of the data. *)
Definition bite (data : list R) (peak d b : Z) : list R :=
  let c := Z.max peak d in
  map (datum data) (filter (fun i => near peak d i && Z.leb (c - b) (Z.of_nat i) && Z.ltb (Z.of_nat i) (c + b))
                           (seq 0 (length data))).
(** How much worse the residuals are than the natural spread, in units of its accuracy. *)
Definition quality (fit : list (R * R) -> R * R * R) (data : list R) (peak d b : Z) : R :=
  let pts := window data peak d in
  let rest := map (fun xy => snd xy - parabola (fit pts) (fst xy)) pts in
  (deviation rest / deviation (bite data peak d b) - 1) * sqrt (IZR b).

(** A quadratic form without negative values. *)
Definition nonnegative2 (m : R * R * R * R) : Prop :=
  let '(a, b, c, d) := m in forall u v, 0 <= a * u * u + b * u * v + c * v * u + d * v * v.
(** The highest, or lowest, point of a parabola. *)
Definition top_x (p : R * R * R) : R := let '(p0, p1, p2) := p in - p1 / (2 * p2).
Definition top_y (p : R * R * R) : R := parabola p (top_x p).

(** The peak p is the top of the parabola fitted to the data at most d away from the estimate. *)
Definition refined (fit : list (R * R) -> R * R * R) (data : list R) (d : Z) (p : Peak) : Prop :=
  let par := fit (window data (pk_in p) d) in
  snd par <> 0 /\ pk_x p = IZR (pk_in p) + top_x par /\ pk_y p = top_y par /\
  Rabs (pk_x p - IZR (pk_in p)) <= IZR d /\ 0 <= pk_x p <= INR (length data).
(** The top is too far away, or outside the data. *)
Definition astray (fit : list (R * R) -> R * R * R) (data : list R) (d peak : Z) : Prop :=
  let par := fit (window data peak d) in
  let x := IZR peak + top_x par in
  snd par <> 0 /\ (IZR d < Rabs (x - IZR peak) \/ x < 0 \/ INR (length data) < x).
(** The seed is doubled as long as the next fit is ok, and less than m. *)
Definition radius (ok : Z -> Prop) (seed m d : Z) : Prop := exists k : nat,
  d = (seed * 2 ^ Z.of_nat k)%Z /\ (d < m)%Z /\
  (forall i : nat, (1 <= i <= k)%nat -> ok (seed * 2 ^ Z.of_nat i)%Z) /\ ((m <= d * 2)%Z \/ ~ ok (d * 2)%Z).
(** Subsequence. *)
Inductive within {A} : list A -> list A -> Prop :=
| w_nil : forall l, within [] l
| w_skip : forall x l l', within l l' -> within l (x :: l')
| w_keep : forall x l l', within l l' -> within (x :: l) (x :: l').

(** The partial derivative of f with respect to the k-th parameter is v. *)
Definition shifted (p : R * R * R) (k : nat) (t : R) : R * R * R :=
  let '(p0, p1, p2) := p in
  match k with O => (p0 + t, p1, p2) | 1%nat => (p0, p1 + t, p2) | _ => (p0, p1, p2 + t) end.
Definition partial (f : R * R * R -> R) (p : R * R * R) (k : nat) (v : R) : Prop :=
  derivable_pt_lim (fun t => f (shifted p k t)) 0 v.
(** First order propagation of the covariances c of three parameters to two functions of them. *)
Definition form (c : nat -> nat -> R) (u v : nat -> R) : R :=
  u 0%nat * (c 0%nat 0%nat * v 0%nat + c 0%nat 1%nat * v 1%nat + c 0%nat 2%nat * v 2%nat)
  + u 1%nat * (c 1%nat 0%nat * v 0%nat + c 1%nat 1%nat * v 1%nat + c 1%nat 2%nat * v 2%nat)
  + u 2%nat * (c 2%nat 0%nat * v 0%nat + c 2%nat 1%nat * v 1%nat + c 2%nat 2%nat * v 2%nat).
Definition nonnegative3 (c : nat -> nat -> R) : Prop := forall u, 0 <= form c u u.
Definition symmetric3 (c : nat -> nat -> R) : Prop := forall i j, c i j = c j i.
