(** Vocabulary for the iterative fit of ellipses. *)
From Coq Require Import Reals List.
From Verif Require Import Num HitPySpec CommonSpec EllipseModel.
Import ListNotations.
Open Scope R_scope.

(** Points of dimension d with positive weights. *)
Definition cloud (d : nat) (points : list (list R)) (ws : list R) : Prop :=
  (1 <= d)%nat /\ points <> [] /\ (forall p, In p points -> List.length p = d) /\
  List.length ws = List.length points /\ (forall w, In w ws -> 0 < w).

(** Weighted sum over the chosen points. *)
Definition wsum (points : list (list R)) (ws : list R) (S : list bool) (f : list R -> R) : R :=
  sum_n (List.length points) (fun i => if nth i S false then nth i ws 0 * f (nth i points []) else 0).

(** Weighted mean and covariance of the chosen points (0 if no point is chosen). *)
Definition wmean points ws S (j : nat) : R :=
  wsum points ws S (fun p => nth j p 0) / wsum points ws S (fun _ => 1).
Definition wcov points ws S (j k : nat) : R :=
  wsum points ws S (fun p => (nth j p 0 - wmean points ws S j) * (nth k p 0 - wmean points ws S k)) /
  wsum points ws S (fun _ => 1).

(** S' are the points inside the ellipse of the points S: (x - <x>)^T V^-1 (x - <x>) |V|^(1/2)
    is below the cut, where V^-1 is the inverse of the covariance V. *)
Definition inside (d : nat) points ws (eps_cut : R) (S S' : list bool) : Prop :=
  exists Vi : nat -> nat -> R,
    (forall i j, (i < d)%nat -> (j < d)%nat ->
       sum_n d (fun k => wcov points ws S i k * Vi k j) = if Nat.eqb i j then 1 else 0) /\
    List.length S' = List.length points /\
    forall i, (i < List.length points)%nat ->
      let x := fun a => nth a (nth i points []) 0 - wmean points ws S a in
      nth i S' false = true <->
      sum_n d (fun a => sum_n d (fun b => x a * Vi a b * x b)) * sqrt (det_n d (wcov points ws S)) < eps_cut.

(** numpy.linalg.inv for d by d matrices: an inverse, or LinAlgError if the matrix is singular. *)
Definition inverts_all (d : nat) (inv : list (list R) -> option (list (list R))) : Prop :=
  forall m, shape d d m ->
    match inv m with
    | Some mi => inverse_of d m mi
    | None => det_n d (ent m) = 0
    end.

(** The image of a point under x -> A x + b. *)
Definition affine (d : nat) (A : nat -> nat -> R) (b : nat -> R) (p : list R) : list R :=
  map (fun i => sum_n d (fun j => A i j * nth j p 0) + b i) (seq 0 d).
