(** Fits of lines to the slopes around a peak (C94). *)
From Coq Require Import Reals ZArith List Lia.
From Verif Require Import MomentSpec AlgoSpec UphillModel.
Import ListNotations.
Open Scope R_scope.

(** The sum of the squares of x - (c + m y) over the points (y, x). *)
Definition misfit (pts : list (R * R)) (c m : R) : R := rsum (fun q => (snd q - (c + m * fst q)) ^ 2) pts.
(** No line fits better. *)
Definition best_line (pts : list (R * R)) (c m : R) : Prop := forall c' m', misfit pts c m <= misfit pts c' m'.

(** The slopes of the data with the places where they are taken, for the places lo, lo+1, ... before hi. *)
Definition slopes (data : list R) (lo hi : nat) : list (R * R) :=
  map (fun i => (val data (S i) - val data i, INR i)) (seq lo (hi - lo)).
(** The window of half width delta around a peak. *)
Definition around (data : list R) (delta peak : nat) : list (R * R) :=
  slopes data (peak - delta) (Nat.min (peak + delta + 1) (length data - 1)).

(** What is asked of the fit: the parameters beyond the first two are fixed at zero, and it finds a best line. *)
Definition fits (root_fit : TF1 -> list (R * R) -> TF1 * R) : Prop :=
  forall f pts, tf_par f = [0; 0; 0; 0; 0] -> tf_fixed f = [false; false; true; true; true] -> pts <> [] ->
  exists c m, tf_par (fst (root_fit f pts)) = [c; m; 0; 0; 0] /\
    tf_fixed (fst (root_fit f pts)) = tf_fixed f /\ best_line pts c m.

(** A function that is free in its first two parameters. *)
Definition ready (f : TF1) : Prop :=
  length (tf_par f) = 5%nat /\ exists a b c, tf_fixed f = [false; false; a; b; c].
