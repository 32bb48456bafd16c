(** Vocabulary for the algorithms on lists of numbers. *)
From Coq Require Import Reals ZArith List Sorted.
Open Scope list_scope.
Import ListNotations.
Open Scope R_scope.

Definition val (data : list R) (i : nat) : R := nth i data 0.

(** Strictly higher than both neighbours, which exist. *)
Definition local_max (data : list R) (i : nat) : Prop :=
  (0 < i)%nat /\ (S i < length data)%nat /\
  val data (i - 1) < val data i /\ val data (S i) < val data i.

Definition increasing (l : list nat) : Prop := StronglySorted lt l.

(** p is the first place of the largest value among data[i], ..., data[i+size-1]. *)
Definition window_max (data : list R) (i size p : nat) : Prop :=
  (i <= p < i + size)%nat /\
  (forall q, (i <= q < p)%nat -> val data q < val data p) /\
  (forall q, (p <= q < i + size)%nat -> val data q <= val data p).

(** i is the start of a window. *)
Definition window_start (n size step i : nat) : Prop :=
  (i + size <= n)%nat /\ exists k, i = (k * step)%nat.

(** p is on an edge of the window that is not an end of the data. *)
Definition on_inner_edge (n i size p : nat) : Prop :=
  (i <> 0%nat /\ p = i) \/ ((i + size)%nat <> n /\ (p + 1)%nat = (i + size)%nat).

Fixpoint total (l : list R) : R := match l with [] => 0 | x :: r => x + total r end.

(** The largest value is further above the mean than [threshold] times the code's sigma. *)
Definition stands_out (threshold : R) (test : list R) (m : R) : Prop :=
  threshold < 1 \/
  let n := INR (length test) in
  let mean := total test / n in
  sqrt (total (map (fun x => x * x) test) - mean * mean) / n * threshold < m - mean.

(** The sum of f(k) for k = a, ..., a+n-1. *)
Fixpoint sum_from (a n : nat) (f : nat -> R) : R :=
  match n with O => 0 | S m => f a + sum_from (S a) m f end.

(** Gauss weights of distance d. *)
Definition bell (sigma : R) (d : Z) : R := exp (- (IZR d * IZR d) / (2 * (sigma * sigma))).
Definition dist (i k : nat) : Z := (Z.of_nat i - Z.of_nat k)%Z.

(** The rows whose flag is false. *)
Fixpoint kept {A} (flags : list bool) (l : list A) : list A :=
  match flags, l with
  | f :: fr, x :: r => if f then kept fr r else x :: kept fr r
  | _, _ => l
  end.

(** x[a:b] for 0 <= a. *)
Definition part (l : list R) (a b : nat) : list R := firstn (b - a) (skipn a l).
Definition average (l : list R) : R := total l / INR (length l).

(** The rows whose mean row j is compared with: the block of [step] rows it is in; for the
    rows after the last whole block, the last [step] rows (if there are so many). *)
Definition window_of (step n j : nat) : nat * nat :=
  if (j <? (n / step) * step)%nat then ((j / step) * step, (j / step) * step + step)%nat
  else if (step <=? n)%nat then ((n - step)%nat, n)
  else ((2 * n - step)%nat, n).

(** |x - m| > cut *)
Definition far_from (cut : R) (m x : R) : bool := if Rlt_dec cut (Rabs (x - m)) then true else false.

(** All choices of one value from every list, the last list varying fastest. *)
Fixpoint product (ls : list (list R)) : list (list R) :=
  match ls with
  | [] => [[]]
  | l :: r => flat_map (fun x => map (cons x) (product r)) l
  end.
(** The values start, start + size, ..., m of them. *)
Definition steps (start size : R) (m : nat) : list R := map (fun k => start + INR k * size) (seq 0 m).

(** 2x2 matrices by rows. *)
Definition M2 : Type := (R * R) * (R * R).
Definition apply2 (m : M2) (v : R * R) : R * R :=
  (fst (fst m) * fst v + snd (fst m) * snd v, fst (snd m) * fst v + snd (snd m) * snd v).
Definition mul2 (m n : M2) : M2 :=
  let col1 := (fst (fst n), fst (snd n)) in
  let col2 := (snd (fst n), snd (snd n)) in
  let c1 := apply2 m col1 in let c2 := apply2 m col2 in
  ((fst c1, fst c2), (snd c1, snd c2)).
Definition transpose2 (m : M2) : M2 := ((fst (fst m), fst (snd m)), (snd (fst m), snd (snd m))).
Definition one2 : M2 := ((1, 0), (0, 1)).
Definition det2 (m : M2) : R := fst (fst m) * snd (snd m) - snd (fst m) * fst (snd m).
Definition trace2 (m : M2) : R := fst (fst m) + snd (snd m).
Definition minus2 (p c : R * R) : R * R := (fst p - fst c, snd p - snd c).
(** Every point comes from the one before by the map [m] about [centre]. *)
Fixpoint orbit (m : M2) (centre : R * R) (p : R * R) (points : list (R * R)) : Prop :=
  match points with
  | [] => True
  | q :: r => minus2 q centre = apply2 m (minus2 p centre) /\ orbit m centre q r
  end.

(** One axis of a scan has the [m] values start, start + size, ..., all below the end, and
    the next one is past the end; if [strict] it does not meet the end either. *)
Definition axis_has (start end_ size : R) (m : nat) (strict : bool) : Prop :=
  0 < size /\ (0 < m)%nat /\ start + INR (m - 1) * size < end_ /\
  (if strict then end_ < start + INR m * size else end_ <= start + INR m * size).
