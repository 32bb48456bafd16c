(** Model of xboa/common/_common.py 954-1037: fit_ellipse and its helpers.

    Points and weights are lists of Python floats, over R.  numpy.linalg.inv is the argument
    [inv] ([None] is LinAlgError).  Exceptions inside the loop are all caught (1028): which one
    it is does not matter, so that they are [None].  Simplified: the accumulators of 963-970 are
    summed one after the other instead of interleaved; lines printed are left out. *)
From Coq Require Import Reals List Bool.
From Verif Require Import Num HitPyModel HitPySpec EllipseModel TransformModel.
Import ListNotations.
Open Scope R_scope.

Inductive FErr := FIndexError.

(** 62: float_tolerance. *)
Definition float_tolerance : R := 1 / 1000000000.

(** 954-956: _sum_weight; [None]: weights shorter than needed. *)
Fixpoint sum_weight (weights : list R) (in_cut : list bool) : option R :=
  match in_cut, weights with
  | [], _ => Some 0
  | c :: cs, [] => if c then None else sum_weight [] cs
  | c :: cs, w :: ws =>
      match sum_weight ws cs with
      | None => None
      | Some s => Some (if c then w + s else s)
      end
  end.

(** 965: the points in the cut, with their weights (missing ones have already raised). *)
Fixpoint in_the_cut (points : list (list R)) (weights : list R) (in_cut : list bool) : list (list R * R) :=
  match points, in_cut with
  | p :: ps, c :: cs =>
      let rest := in_the_cut ps (tl weights) cs in
      if c then (p, hd 0 weights) :: rest else rest
  | _, _ => []
  end.

(** 968-970: one accumulator. *)
Definition accumulate (f : list R -> R) (sum_weight : R) (sel : list (list R * R)) : R :=
  fold_left (fun acc pw => acc + f (fst pw) / sum_weight * snd pw) sel 0.

(** 958-974: _get_fit_ellipse_covariance_matrix.  [None]: no point (961), a point with too few
    coordinates (968), weights too short (960) or adding up to 0 (968). *)
Definition get_covariance (points : list (list R)) (weights : list R) (in_cut : list bool)
  : option (list R * list (list R)) :=
  match sum_weight weights in_cut, points with
  | Some sw, p0 :: _ =>
      let dimension := List.length p0 in
      let sel := in_the_cut points weights in_cut in
      if negb (forallb (fun pw => Nat.leb dimension (List.length (fst pw))) sel) then None
      else if (match sel with [] => false | _ => if Req_EM_T sw 0 then negb (Nat.eqb dimension 0) else false end) then None
      else
        let mean := map (fun j => accumulate (fun p => nth j p 0) sw sel) (seq 0 dimension) in
        let cov := matrix_of dimension (fun j k =>
                     accumulate (fun p => nth j p 0 * nth k p 0) sw sel - nth j mean 0 * nth k mean 0) in
        Some (mean, cov)
  | _, _ => None
  end.

(** 976-986: _update_fit_ellipse_cut; n_dim is 2 whatever the dimension.  The root of a negative
    determinant is nan, for which the comparison is false.  [None]: a point whose length is not
    that of the mean (982, 984). *)
Definition update_cut (points : list (list R)) (cov_inv : list (list R)) (mean : list R) (eps_cut : R)
  : option (list bool) :=
  let n := List.length mean in
  if forallb (fun p => Nat.eqb (List.length p) n) points then
    let d := det cov_inv in
    Some (map (fun p =>
      let vec := fun i => nth i p 0 - nth i mean 0 in
      let eps := sum_n n (fun i => vec i * sum_n n (fun j => ent cov_inv i j * vec j)) / sqrt d in
      if Rlt_dec d 0 then false else if Rlt_dec eps eps_cut then true else false) points)
  else None.

Section Fit.
  Variable inv : list (list R) -> option (list (list R)).

  (** 1016-1027: the loop; [k] is the number of iterations left. *)
  Fixpoint fit_loop (k : nat) (points : list (list R)) (weights : list R) (eps_cut : R)
      (mean : list R) (cov : list (list R)) (old_det : R) (in_cut : list bool)
    : list R * list (list R) * list bool :=
    match k with
    | O => (mean, cov, in_cut)
    | S k' =>
        if Rlt_dec float_tolerance (Rabs (det cov - old_det)) then
          match get_covariance points weights in_cut with
          | None => (mean, cov, in_cut)
          | Some (mean', cov') =>
              match inv cov' with
              | None => (mean', cov', in_cut)
              | Some mat_inv =>
                  match update_cut points mat_inv mean' eps_cut with
                  | None => (mean', cov', in_cut)
                  | Some in_cut' => fit_loop k' points weights eps_cut mean' cov' (det cov) in_cut'
                  end
              end
          end
        else (mean, cov, in_cut)
    end.

  (** 988-1037: fit_ellipse.  The line 1033 is outside of the try. *)
  Definition fit_ellipse (points : list (list R)) (eps_cut : R) (weights : option (list R))
      (max_number_of_iterations : nat) (verbose : bool) : FErr + (list R * list (list R)) :=
    let weights := match weights with Some w => w | None => repeat 1 (List.length points) end in
    match fit_loop max_number_of_iterations points weights eps_cut [1; 1] [[1; 1]; [1; 1]] 1
            (repeat true (List.length points)) with
    | (mean, cov, in_cut) =>
        if verbose then match sum_weight weights in_cut with
                        | None => inl FIndexError
                        | Some _ => inr (mean, cov)
                        end
        else inr (mean, cov)
    end.
End Fit.
