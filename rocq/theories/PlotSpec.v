(** Vocabulary for plots: limits of axes, order of points, bins of ROOT. *)
From Coq Require Import Reals ZArith List Bool Permutation Sorted.
From Verif Require Import MomentSpec.
Import ListNotations.
Open Scope list_scope.
Open Scope R_scope.

(** The smallest and the largest number of a list. *)
Definition least (a : R) (l : list R) : Prop := In a l /\ forall x, In x l -> a <= x.
Definition largest (b : R) (l : list R) : Prop := In b l /\ forall x, In x l -> x <= b.

(** The limits of an axis for the values l: from the smallest to the largest value with a margin on either side,
    and 1 more on either side if they are closer than 1e-9.  Without values: -1 and 1. *)
Definition limits (margin : R) (l : list R) (lo hi : R) : Prop :=
  l = [] /\ lo = -1 /\ hi = 1 \/
  exists a b, least a l /\ largest b l /\
    let d := margin * (b - a) in
    (1 / 1000000000 <= b - a + 2 * d /\ lo = a - d /\ hi = b + d \/
     b - a + 2 * d < 1 / 1000000000 /\ lo = a - d - 1 /\ hi = b + d + 1).

(** The same, where the user may give either limit. *)
Definition axis (margin : R) (l : list R) (xmin xmax : option R) (lo hi : R) : Prop :=
  exists lo0 hi0, limits margin l lo0 hi0 /\
    lo = match xmin with Some a => a | None => lo0 end /\ hi = match xmax with Some b => b | None => hi0 end.

(** The values that set the limits of a histogram: those with a weight above 1e-6. *)
Definition counted (xs ws l : list R) : Prop :=
  forall x, In x l <-> exists w, In (x, w) (combine xs ws) /\ 1 / 1000000 < w.

(** [out] has the points of [inp], ascending in x; points of one x stay in their order. *)
Definition by_x (out inp : list (R * R)) : Prop :=
  Permutation out inp /\ StronglySorted (fun p q => fst p <= fst q) out /\
  forall x, filter (fun p => if Req_EM_T (fst p) x then true else false) out =
            filter (fun p => if Req_EM_T (fst p) x then true else false) inp.

(** ROOT, TAxis::FindBin: bin 0 is below the axis, bins 1 to n are on it (without the upper limit), bin n + 1 is
    above it. *)
Definition root_bin (n : Z) (lo hi x : R) : Z :=
  if Rlt_dec x lo then 0%Z
  else if Rlt_dec x hi then (1 + (up (IZR n * (x - lo) / (hi - lo)) - 1))%Z
  else (n + 1)%Z.

(** ROOT, GetBinContent of a TH1D with these calls of Fill (x and weight). *)
Definition bin_content (n : Z) (lo hi : R) (fs : list (R * R)) (i : Z) : R :=
  rsum (fun f => if Z.eqb (root_bin n lo hi (fst f)) i then snd f else 0) fs.

(** Sum over the bins from..from+k-1. *)
Definition sum_bins (f : Z -> R) (from : Z) (k : nat) : R :=
  rsum (fun i => f (from + Z.of_nat i)%Z) (seq 0 k).

(** The limits numpy.histogram takes: smallest and largest value, or 1/2 on either side of a single value. *)
Definition np_axis (xs : list R) (lo hi : R) : Prop :=
  exists a b, least a xs /\ largest b xs /\
    (a < b /\ lo = a /\ hi = b \/ a = b /\ lo = a - 1 / 2 /\ hi = b + 1 / 2).

(** x is in bin i (0..n-1) of n bins from lo to hi: from its lower edge up to its upper edge, which only the last bin
    includes. *)
Definition np_bin (lo hi : R) (n i : nat) (x : R) : Prop :=
  let d := (hi - lo) / INR n in
  lo + INR i * d <= x /\ (x < lo + INR (S i) * d \/ S i = n /\ x = hi).

(** matplotlib, hexbin: what a hexagon shows that holds the points of these positions (at least one): the mean of C for
    them, or their number without C. *)
Definition hexagon (C : option (list R)) (inside : list nat) : R :=
  match C with
  | Some ws => rsum (fun i => nth i ws 0) inside / INR (List.length inside)
  | None => INR (List.length inside)
  end.
