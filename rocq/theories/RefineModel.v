(** Model of xboa/algorithms/peak_finder/_refine_peak_finder.py: RefinePeakFinder.  Line numbers
    refer to it.

    Floats are real numbers, data are floats.  The quadratic fit of ROOT is the argument [fit]
    (parameters 0, 1, 2), its covariance matrix the argument [cov]; both depend on the points only.
    Drawing is left out. *)
From Coq Require Import Reals ZArith List Bool.
From Verif Require Import HitPyModel HitPySpec CommonModel AlgoModel.
Import ListNotations.
Open Scope R_scope.

Inductive FErr := FIndex | FZeroDivision | FValue | FType.

(** sum of a list of floats. *)
Definition rsum (l : list R) : R := fold_left Rplus l 0.

(** 49-60: sigma; [None]: ZeroDivisionError.  The root of a negative number does not occur. *)
Definition sigma (data : list R) : option R :=
  match data with
  | [] => None
  | _ => let n := INR (length data) in
         let mean_square_sum := rsum (map (fun y => y ^ 2) data) / n in
         let mean_sum_square := rsum data / n in
         Some (sqrt (mean_square_sum - mean_sum_square ^ 2))
  end.

(** l[a:b]. *)
Definition py_slice (l : list R) (a b : Z) : list R :=
  let n := Z.of_nat (length l) in
  let clip z := Z.min n (if Z.ltb z 0 then Z.max 0 (z + n) else z)%Z in
  firstn (Z.to_nat (clip b - clip a)) (skipn (Z.to_nat (clip a)) l).

(** 89-92: x_list and y_list, as points. *)
Definition points (data : list R) (peak delta : Z) : list (R * R) :=
  let x_min := Z.max (peak - delta) 0 in
  let x_max := Z.min (peak + delta + 1) (Z.of_nat (length data)) in
  map (fun i => (IZR (x_min - peak + Z.of_nat i), nth (Z.to_nat x_min + i) data 0))
      (seq 0 (Z.to_nat (x_max - x_min))).

Definition parabola (p : R * R * R) (x : R) : R := let '(p0, p1, p2) := p in p0 + p1 * x + p2 * x * x.

Record Peak := mkPeak { pk_x : R; pk_y : R; pk_in : Z; pk_cov : R * R * R * R }.

Section Refine.
  Variable fit : list (R * R) -> R * R * R.
  Variable cov : list (R * R) -> nat -> nat -> R.

  (** 62-112: _peak_fit, the quality of the fit.  No points: IndexError of make_root_graph, which
      also rejects lists of different lengths. *)
  Definition peak_fit (data : list R) (peak delta_fit delta_bite : Z) : FErr + R :=
    let pts := points data peak delta_fit in
    match pts with
    | [] => inl FIndex
    | _ =>
        let p := fit pts in
        let delta_list := map (fun xy => snd xy - parabola p (fst xy)) pts in
        match sigma delta_list,
              sigma (py_slice (map snd pts) (delta_fit - delta_bite) (delta_fit + delta_bite)) with
        | Some sigma_delta, Some sigma_bite =>
            if Req_EM_T sigma_bite 0 then inl FZeroDivision
            else if Z.ltb delta_bite 0 then inl FValue
            else inr ((sigma_delta / sigma_bite - 1) * sqrt (IZR delta_bite))
        | _, _ => inl FZeroDivision
        end
    end.

  (** 129-134: the loop; [k] bounds the number of passes.  delta_fit in the end, as the quality
      is overwritten at 136; an exception ends the loop. *)
  Fixpoint search (k : nat) (data : list R) (peak delta_seed this_max : Z) (quality : R) (delta_fit : Z)
    : option Z :=
    if (rltb quality 1 && Z.ltb delta_fit this_max)%bool then
      match k with
      | O => None
      | S k' =>
          let delta_fit := (delta_fit * 2)%Z in
          match peak_fit data peak delta_fit delta_seed with
          | inl _ => Some delta_fit
          | inr q => search k' data peak delta_seed this_max q delta_fit
          end
      end
    else Some delta_fit.

  (** 158-181: the peak of a fit; [inr None]: left out (162-165).  177-178: J * CovP * J^T. *)
  Definition peak_of (data : list R) (peak delta_fit : Z) : FErr + option Peak :=
    let pts := points data peak delta_fit in
    let '(p0, p1, p2) := fit pts in
    if Req_EM_T p2 0 then inl FZeroDivision
    else
      let x := - p1 / 2 / p2 + IZR peak in
      let y := - p1 * p1 / 4 / p2 + p0 in
      if (rltb (IZR delta_fit) (Rabs (x - IZR peak)) || rltb x 0 || rltb (INR (length data)) x)%bool then inr None
      else
        let j1 := [0; - 1 / 2 / p2; p1 / 2 / p2 / p2] in
        let j2 := [1; - p1 / 2 / p2; p1 * p1 / 4 / p2 / p2] in
        let c := fun a b => sum_n 3 (fun m => sum_n 3 (fun l => nth l a 0 * cov pts m l) * nth m b 0) in
        inr (Some (mkPeak x y peak (c j1 j1, c j2 j1, c j1 j2, c j2 j2))).

  (** 114-191: find_peak_errors, the loop over the peaks; [quality] is kept from one to the next.
      [true_division]: Python 3, where 135 makes delta_fit a float that cannot bound the ranges and
      slices of 90-107: an exception, written as TypeError. *)
  Fixpoint peaks_loop (true_division : bool) (data : list R) (delta_seed max_delta : Z) (quality : R) (peaks : list Z)
    : FErr + list Peak :=
    match peaks with
    | [] => inr []
    | peak :: r =>
        let this_max := Z.min (Z.of_nat (length data)) max_delta in
        match search (S (Z.to_nat this_max)) data peak delta_seed this_max quality delta_seed with
        | None => inl FType
        | Some d =>
            if true_division then inl FType
            else
              let delta_fit := (d / 2)%Z in
              match peak_fit data peak delta_fit delta_seed with
              | inl e => inl e
              | inr quality =>
                  match peak_of data peak delta_fit with
                  | inl e => inl e
                  | inr o =>
                      match peaks_loop true_division data delta_seed max_delta quality r with
                      | inl e => inl e
                      | inr l => inr (match o with Some p => p :: l | None => l end)
                      end
                  end
              end
        end
    end.
  Definition find_peak_errors (true_division : bool) (data : list R) (delta_seed max_delta : Z) (peaks : list Z)
    : FErr + list Peak := peaks_loop true_division data delta_seed max_delta 0 peaks.

  (** 193-204: find_peaks. *)
  Definition find_peaks (true_division : bool) (data : list R) (delta_seed max_delta : Z) (peaks : list Z)
    : FErr + list Z :=
    match find_peak_errors true_division data delta_seed max_delta peaks with
    | inl e => inl e
    | inr l => inr (map (fun p => int_of (pk_x p)) l)
    end.
End Refine.
