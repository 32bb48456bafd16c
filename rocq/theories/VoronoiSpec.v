(** Vocabulary for the Voronoi weighting. *)
From Coq Require Import Reals ZArith List String.
From Verif Require Import Num HitcoreModel BunchModel BunchSpec HitPySpec MomentSpec CommonSpec EllipseModel
  TransformModel VoronoiModel.
Import ListNotations.
Open Scope R_scope.

(** (x - m)^T V^-1 (x - m), given V^-1. *)
Definition radius (minv : list (list R)) (m x : list R) : R := form minv (minus x m).

(** Volume of the simplex with the given d + 1 vertices: |det (x_i - x_0)| / d!. *)
Definition volume (d : nat) (vs : list (list R)) : R :=
  Rabs (det_n d (fun i j => nth j (nth (S i) vs []) 0 - nth j (nth 0 vs []) 0)) / INR (fact d).

(** Probability density of the normal distribution with mean m, inverse covariance minv and
    determinant of the covariance v. *)
Definition gaussian (d : nat) (m : list R) (minv : list (list R)) (v : R) (x : list R) : R :=
  exp (- (radius minv m x / 2)) / sqrt ((2 * PI) ^ d * v).

(** The vertices of tile number r of a tesselation. *)
Definition tile_vertices (t : Tesselation) (region : list Z) (points : list (list R)) : Prop :=
  Forall2 (fun (j : Z) p => (0 <= j)%Z /\ nth_error (vertices t) (Z.to_nat j) = Some p) region points.

(** [content_of delaunay t i c]: the tile of point i has content c, the sum of the volumes of
    the simplices it is divided into; tiles that reach infinity have content 0. *)
Inductive content_of (delaunay : list (list R) -> option (list (list nat))) (t : Tesselation) (i : nat)
  : R -> Prop :=
| open_tile : forall k region,
    nth_error (point_region t) i = Some k -> nth_error (regions t) k = Some region ->
    region = [] \/ In (-1)%Z region -> content_of delaunay t i 0
| closed_tile : forall k region points simplices,
    nth_error (point_region t) i = Some k -> nth_error (regions t) k = Some region ->
    region <> [] -> ~ In (-1)%Z region -> tile_vertices t region points ->
    delaunay points = Some simplices ->
    content_of delaunay t i
      (rsum (fun s => volume (List.length (hd [] points)) (map (fun k => nth k points []) s)) simplices).

(** A tesselation of n points as scipy gives it: numbers in range, and Delaunay succeeds. *)
Definition tesselates (delaunay : list (list R) -> option (list (list nat))) (t : Tesselation) (n : nat) : Prop :=
  forall i, (i < n)%nat ->
    exists k region, nth_error (point_region t) i = Some k /\ nth_error (regions t) k = Some region /\
      (forall j, In j region -> (-1 <= j < Z.of_nat (List.length (vertices t)))%Z) /\
      (vertices t = [] -> region = []) /\
      forall points, tile_vertices t region points -> delaunay points <> None.

(** The point of a hit in the space of the weighted variables. *)
Definition point_of (vars : list string) (val : string -> nat -> R) (l : nat) : list R :=
  map (fun v => val v l) vars.

(** The hits on or inside the bound, in order; all of them if there is no bound. *)
Definition inside_hits (bound : option BoundingEllipse) (vars : list string) (val : string -> nat -> R)
    (hits : list nat) : list nat :=
  match bound with
  | None => hits
  | Some be =>
      filter (fun l => if Rle_dec (radius (be_inv be) (be_mean be) (point_of vars val l)) 1 then true else false)
             hits
  end.

(** A bound for points of dimension d. *)
Definition bound_dim (d : nat) (be : BoundingEllipse) : Prop :=
  be_dim be = d /\ List.length (be_mean be) = d /\ shape d d (be_inv be) /\
  forall p, In p (be_points be) -> List.length p = d.

(** No two hits of the list have the same weight: the same object twice, or two hits of the
    same track if global weights are set. *)
Definition own_weights (g : bool) (w : World RNum) (hits : list nat) : Prop :=
  NoDup hits /\ forall l l', In l hits -> In l' hits -> l <> l' -> ~ shares_weight g w l l'.

(** A weighting for points of dimension d. *)
Definition weighting_dim (d : nat) (v : VoronoiWeighting) : Prop :=
  (1 <= d)%nat /\ List.length (v_variables v) = d /\ List.length (v_mean v) = d /\ shape d d (v_inv v) /\ 0 < v_det v /\
  match v_bound v with Some be => bound_dim d be | None => True end.

(** The points on the bound. *)
Definition boundary (bound : option BoundingEllipse) : list (list R) :=
  match bound with Some be => be_points be | None => [] end.
