(** Model of the Voronoi weighting: xboa/bunch/weighting/_bounding_ellipse.py,
    _voronoi_weighting.py and _hull_content.py.

    Floats are real numbers.  numpy.linalg.inv, scipy.spatial.Voronoi and
    scipy.spatial.Delaunay are arguments.  Not modelled: plotting. *)
From Coq Require Import Reals ZArith List Bool String.
From Verif Require Import Num WeightModel HitcoreModel BunchModel HitPyModel HitPySpec MomentModel
  BunchNumModel CommonModel EllipseModel TransformModel.
Import ListNotations.
Open Scope R_scope.

Inductive VErr := VValueError | VTypeError | VNameError | VLinAlg | VIndexError | VOther.

(** The version of the language.  In Python 2 zip returns a list and xrange exists; in
    Python 3 zip returns an iterator and xrange does not exist. *)
Inductive Python := Python2 | Python3.

(** ---- _bounding_ellipse.py ------------------------------------------------------------ *)

Record BoundingEllipse := mkBound {
  be_dim : nat;
  be_points : list (list R);        (* bounding_points *)
  be_inv : Matrix;                  (* ellipse_inv *)
  be_mean : list R
}.

(** limit_n_per_dim: a Python int or anything else. *)
Inductive PerDim := DInt (n : Z) | DOther.

(** numpy.shape of a matrix is (n, n). *)
Definition is_square_n (n : nat) (m : Matrix) : bool :=
  (Nat.eqb (List.length m) n && forallb (fun r => Nat.eqb (List.length r) n) m)%bool.

(** 42-81: the constructor.  A point of the shell that is not a number stays one after the
    shift of 73-77; here it is an error. *)
Definition bounding_ellipse (inv : Matrix -> option Matrix) (limit_ellipse : Matrix)
    (limit_mean : list R) (n : PerDim) : VErr + BoundingEllipse :=
  let dim := List.length limit_ellipse in
  match n with
  | DOther => inl VValueError
  | DInt n =>
      if (n <? 1)%Z then inl VValueError
      else if negb (is_square_n dim limit_ellipse) then inl VValueError
      else if negb (Nat.eqb (List.length limit_mean) dim) then inl VValueError
      else
        match make_shell inv (Z.to_nat n) limit_ellipse None with
        | inl CLinAlg => inl VLinAlg
        | inl _ => inl VValueError
        | inr shell =>
            match all_some shell, inv limit_ellipse with
            | Some pts, Some minv =>
                inr (mkBound dim (map (fun row => vadd row limit_mean) pts) minv limit_mean)
            | _, _ => inl VOther
            end
        end
  end.

(** 95-98: the argument compared with 1; [None]: the shapes do not fit (ValueError; a
    vector of length 1 would be stretched instead). *)
Definition bound_arg (be : BoundingEllipse) (point : list R) : option R :=
  if Nat.eqb (List.length point) (List.length (be_mean be))
  then
    let delta := map (fun xy => fst xy - snd xy) (combine point (be_mean be)) in
    Some (dot delta (map (fun row => dot row delta) (be_inv be)))
  else None.

(** numpy.delete(points, i, 0). *)
Definition delete_row (points : list (list R)) (i : nat) : list (list R) :=
  firstn i points ++ skipn (S i) points.

(** 94-104: the loop.  [fuel] bounds the number of rounds; every round either deletes a point
    or moves on, so that the number of points is enough. *)
Fixpoint cut_loop (be : BoundingEllipse) (fuel : nat) (points : list (list R)) (i index : nat)
    (not_cut : list nat) : VErr + (list (list R) * list nat) :=
  match fuel with
  | O => inr (points, not_cut)
  | S f =>
      match nth_error points i with
      | None => inr (points, not_cut)                   (* i = len(points) *)
      | Some point =>
          match bound_arg be point with
          | None => inl VValueError
          | Some arg =>
              if Rlt_dec 1 arg then cut_loop be f (delete_row points i) i (S index) not_cut
              else cut_loop be f points (S i) (S index) (not_cut ++ [index])
          end
      end
  end.

(** 83-104: cut_on_bound. *)
Definition cut_on_bound (be : BoundingEllipse) (points_in : list (list R))
  : VErr + (list (list R) * list nat) :=
  cut_loop be (List.length points_in) points_in 0 0 [].

(** ---- _hull_content.py ---------------------------------------------------------------- *)

(** scipy.spatial.Voronoi: the attributes used; -1 in a region is the vertex at infinity. *)
Record Tesselation := mkTess {
  point_region : list nat;
  regions : list (list Z);
  vertices : list (list R)
}.

(** 79-80: the squared distance of two points. *)
Definition length_sq (dimension : nat) (p q : list R) : R :=
  fold_left (fun s d => s + (nth d p 0 - nth d q 0) ^ 2) (seq 0 dimension) 0.

(** 66-84: _get_cm_matrix for a simplex given by its vertices.  Simplified: the matrix is
    given entry by entry; the code fills both triangles from the upper one. *)
Definition cm_matrix (simplex : list (list R)) (dimension : nat) : Matrix :=
  matrix_of (dimension + 2) (fun i j =>
    match i, j with
    | O, O => 0
    | O, S _ | S _, O => 1
    | S a, S b =>
        if Nat.ltb a b then length_sq dimension (nth a simplex []) (nth b simplex [])
        else if Nat.ltb b a then length_sq dimension (nth b simplex []) (nth a simplex [])
        else 0
    end).

(** 99-100: the coefficient. *)
Definition cm_coefficient (dimension : nat) : R :=
  (-1) ^ (dimension + 1) / 2 ^ dimension / INR (fact dimension) ^ 2.

(** 101-108: the sum over the simplices.  The root of a negative number is nan, which is
    skipped. *)
Definition add_simplex (dimension : nat) (content : R) (simplex : list (list R)) : R :=
  let c := cm_coefficient dimension * det (cm_matrix simplex dimension) in
  if Rlt_dec c 0 then content else content + sqrt c.

(** scipy.spatial.Delaunay: the simplices, as lists of point numbers; [None]: it raises. *)
Definition Delaunay := list (list R) -> option (list (list nat)).

(** 86-113: _tile_content. *)
Definition tile_content (py : Python) (delaunay : Delaunay) (region : list Z)
    (points : list (list R)) : VErr + R :=
  if (existsb (Z.eqb (-1)) region || Nat.eqb (List.length region) 0)%bool then inr 0
  else
    let dimension := List.length (hd [] points) in
    match delaunay points with
    | None => inl VOther
    | Some simplices =>
        match py, simplices with
        | Python3, _ :: _ => inl VNameError        (* xrange, 80 *)
        | _, _ =>
            inr (fold_left (add_simplex dimension)
                   (map (map (fun k => nth k points [])) simplices) 0)
        end
    end.

Fixpoint all_okV {A} (l : list (VErr + A)) : VErr + list A :=
  match l with
  | [] => inr []
  | inr x :: r => match all_okV r with inr y => inr (x :: y) | inl e => inl e end
  | inl e :: _ => inl e
  end.

(** 53-64: recalculate, for region_list = range(n).  pool.map returns the results in the order
    of the jobs.  Line 63 indexes vertices with every number of the region, -1 included, which
    is the last vertex; if there is no vertex it raises. *)
Definition hull_content (py : Python) (delaunay : Delaunay) (t : Tesselation) (n : nat)
  : VErr + list R :=
  all_okV (map (fun i =>
    match nth_error (point_region t) i with
    | None => inl VIndexError
    | Some tile_index =>
        match nth_error (regions t) tile_index with
        | None => inl VIndexError
        | Some region =>
            match all_some (map (fun j : Z =>
                    match list_index (List.length (vertices t)) j with
                    | Some k => nth_error (vertices t) k
                    | None => None
                    end) region) with
            | None => inl VIndexError
            | Some points => tile_content py delaunay region points
            end
        end
    end) (seq 0 n)).

(** ---- _voronoi_weighting.py ------------------------------------------------------------- *)

Record VoronoiWeighting := mkVor {
  v_dim : nat;
  v_variables : list string;
  v_inv : Matrix;                      (* weight_ellipse_inv *)
  v_det : R;                           (* weight_ellipse_det *)
  v_mean : list R;
  v_bound : option BoundingEllipse
}.

(** 74-128: the constructor.  [elementwise]: the comparison of an array with None (102) gives
    an array, as in numpy from version 1.13 on; the truth value of an array with several
    elements is a ValueError. *)
Definition voronoi_weighting (elementwise : bool) (inv : Matrix -> option Matrix)
    (weight_variables : list string) (weight_ellipse : Matrix) (weight_mean : option (list R))
    (voronoi_bound : option BoundingEllipse) : VErr + VoronoiWeighting :=
  let dim := List.length weight_variables in
  let ambiguous := match weight_mean with
                   | None => false
                   | Some m => (elementwise && Nat.ltb 1 (List.length m))%bool
                   end in
  let mean := match weight_mean with Some m => m | None => repeat 0 dim end in
  if ambiguous then inl VValueError
  else if negb (Nat.eqb (List.length mean) dim) then inl VValueError
  else if negb (is_square_n dim weight_ellipse) then inl VValueError
  else if (match voronoi_bound with
           | Some be => negb (Nat.eqb (be_dim be) dim)
           | None => false
           end) then inl VValueError
  else match inv weight_ellipse with
       | None => inl VLinAlg
       | Some minv => inr (mkVor dim weight_variables minv (det weight_ellipse) mean voronoi_bound)
       end.

(** 174-187: get_pdf.  [None]: not a number, the root of a negative norm, or a division by 0. *)
Definition get_pdf (v : VoronoiWeighting) (point : list R) : option R :=
  let norm := (2 * PI) ^ (List.length point) * v_det v in
  let delta := map (fun xy => fst xy - snd xy) (combine point (v_mean v)) in
  let arg := - (1 / 2) * dot delta (map (fun row => dot row delta) (v_inv v)) in
  if Rle_dec norm 0 then None else Some (exp arg / sqrt norm).

(** 146-148: numpy.array(zip of the columns), one row for each hit. *)
Definition rows_of (n : nat) (columns : list (list R)) : list (list R) :=
  map (fun i => map (fun c => nth i c 0) columns) (seq 0 n).

(** list_get_hit_variable for several variables as numbers; [None]: a variable is missing or
    is not a number. *)
Definition columns_of (extra : RWorld -> list nat -> string -> nat -> option RVal) (w : RWorld)
    (hits : list nat) (vars : list string) : option (list (list R)) :=
  all_some (map (fun v =>
    match list_get_hit_variable extra w hits v with
    | Some vs => all_some (map as_real vs)
    | None => None
    end) vars).

(** 165-169: the first loop; hit_index runs over not_cut. *)
Fixpoint weigh_loop (w : RWorld) (hits : list nat) (name : string)
    (todo : list (nat * (option R * R))) : RWorld * option VErr :=
  match todo with
  | [] => (w, None)
  | (hit_index, (pdf, content)) :: r =>
      match nth_error hits hit_index, pdf with
      | Some l, Some p =>
          let (w', ok) := hit_set w l name (PFloat (p * content : RNum)) in
          if ok then weigh_loop w' hits name r else (w', Some VIndexError)
      | _, _ => (w, Some VOther)                 (* the weight would be nan *)
      end
  end.

(** 170-172: the second loop. *)
Fixpoint zero_loop (w : RWorld) (name : string) (not_cut : list nat) (i : nat) (hs : list nat)
  : RWorld * option VErr :=
  match hs with
  | [] => (w, None)
  | l :: r =>
      if existsb (Nat.eqb i) not_cut then zero_loop w name not_cut (S i) r
      else
        let (w', ok) := hit_set w l name (PFloat (0 : RNum)) in
        if ok then zero_loop w' name not_cut (S i) r else (w', Some VIndexError)
  end.

Section Apply.
  Variable extra : RWorld -> list nat -> string -> nat -> option RVal.
  Variable voronoi : list (list R) -> option Tesselation.
  Variable delaunay : Delaunay.

  (** 149-156: the points kept and their positions, and the points of the tesselation. *)
  Definition select_points (v : VoronoiWeighting) (rows : list (list R))
    : VErr + (list (list R) * list nat * list (list R)) :=
    match v_bound v with
    | Some be =>
        match rows with
        | [] => inl VValueError                  (* vstack of an array of shape (0,) *)
        | _ =>
            match cut_on_bound be rows with
            | inl e => inl e
            | inr (kept, not_cut) => inr (kept, not_cut, kept ++ be_points be)
            end
        end
    | None => inr (rows, seq 0 (List.length rows), rows)
    end.

  (** 130-172: apply_weights.  Under Python 3 zip is no list: numpy makes an array without
      length of it and len raises TypeError (94 of _bounding_ellipse.py, or 156). *)
  Definition apply_weights (py : Python) (v : VoronoiWeighting) (w : RWorld) (b : Bunch)
      (global_cut : bool) : RWorld * option VErr :=
    match columns_of extra w (b_hits b) (v_variables v) with
    | None => (w, Some VOther)
    | Some columns =>
        match py with
        | Python3 => (w, Some VTypeError)
        | Python2 =>
            match select_points v (rows_of (List.length (b_hits b)) columns) with
            | inl e => (w, Some e)
            | inr (kept, not_cut, points) =>
                match voronoi points with
                | None => (w, Some VOther)
                | Some t =>
                    match hull_content py delaunay t (List.length kept) with
                    | inl e => (w, Some e)
                    | inr contents =>
                        let name := weight_name global_cut in
                        match weigh_loop w (b_hits b) name
                                (combine not_cut (combine (map (get_pdf v) kept) contents)) with
                        | (w1, Some e) => (w1, Some e)
                        | (w1, None) => zero_loop w1 name not_cut 0 (b_hits b)
                        end
                    end
                end
            end
        end
    end.
End Apply.
