(** Vocabulary for the tune from a Fourier transform. *)
From Coq Require Import Reals List Sorted.
From Verif Require Import HitPySpec.
Import ListNotations.
Open Scope R_scope.

(** numpy.fft.rfft: the first N/2 + 1 Fourier coefficients of N numbers. *)
Definition is_rfft (rfft : list R -> list (R * R)) : Prop :=
  forall u, u <> [] ->
    length (rfft u) = (length u / 2 + 1)%nat /\
    forall i, (i < length (rfft u))%nat ->
      nth i (rfft u) (0, 0) =
        (sum_n (length u) (fun m => nth m u 0 * cos (2 * PI * INR i * INR m / INR (length u))),
         - sum_n (length u) (fun m => nth m u 0 * sin (2 * PI * INR i * INR m / INR (length u)))).

(** N samples of an oscillation with q periods in N samples, that is q/N periods for each sample. *)
Definition tone (N q : nat) (A phi : R) : list R :=
  map (fun m => A * cos (2 * PI * INR q * INR m / INR N + phi)) (seq 0 N).

(** Between a and b there is one hill: no valley and no plain. *)
Definition one_hill (f : R -> R) (a b : R) : Prop :=
  forall x y z, a <= x -> x < y -> y < z -> z <= b -> Rmin (f x) (f z) < f y.

Definition increasing_R (l : list R) : Prop :=
  forall i j, (i < j)%nat -> (j < length l)%nat -> nth i l 0 < nth j l 0.

(** The point p of the grid is not at an end, and not lower than its neighbours. *)
Definition grid_peak (f : R -> R) (grid : list R) (p : nat) : Prop :=
  (1 <= p)%nat /\ (p + 1 < length grid)%nat /\
  f (nth (p - 1) grid 0) <= f (nth p grid 0) /\ f (nth (p + 1) grid 0) <= f (nth p grid 0).

(** The Fourier transform of the samples u at nu periods for each sample. *)
Definition magnitude (u : list R) (nu : R) : R :=
  sqrt ((sum_n (length u) (fun m => nth m u 0 * cos (2 * PI * nu * INR m))) ^ 2 +
        (sum_n (length u) (fun m => nth m u 0 * sin (2 * PI * nu * INR m))) ^ 2).

(** The hill is the same on both sides of c: the closer to c, the higher. *)
Definition symmetric_hill (f : R -> R) (a b c : R) : Prop :=
  forall x y, a <= x <= b -> a <= y <= b -> (f x < f y <-> Rabs (y - c) < Rabs (x - c)).

(** The transform at the frequencies 0, 1/N, 2/N, ... up to a half, for N samples, N odd. *)
Definition spectrum (u : list R) : list R :=
  map (fun i => magnitude u (INR i / INR (length u))) (seq 0 ((length u + 1) / 2)).

(** The frequency that the tune k stands for. *)
Definition heard (u : list R) (k : R) : R := magnitude u (k * (INR (length u) + 1) / INR (length u)).
