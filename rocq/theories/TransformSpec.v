(** Vocabulary for transform_to. *)
From Coq Require Import Reals List String.
From Verif Require Import Num HitcoreModel HitPySpec CommonSpec MomentSpec.
Open Scope R_scope.

(** numpy.linalg.eigh: the eigenvalues, and orthonormal eigenvectors as columns. *)
Definition eigen_system (n : nat) (m : list (list R)) (e : list R * list (list R)) : Prop :=
  let (evals, evecs) := e in
  List.length evals = n /\ shape n n evecs /\
  (forall i j, (i < n)%nat -> (j < n)%nat ->
     sum_n n (fun k => ent evecs k i * ent evecs k j) = if Nat.eqb i j then 1 else 0) /\
  (forall i j, (i < n)%nat -> (j < n)%nat ->
     sum_n n (fun k => ent m i k * ent evecs k j) = ent evecs i j * nth j evals 0).

(** v^T A v > 0 for every v that is not 0. *)
Definition definite (n : nat) (A : nat -> nat -> R) : Prop :=
  forall v : nat -> R, (exists i, (i < n)%nat /\ v i <> 0) ->
    0 < sum_n n (fun i => sum_n n (fun j => v i * A i j * v j)).

(** The inverse of the matrix eigh gives to inv: eigenvectors times the roots of eigenvalues. *)
Definition inverts (inv : list (list R) -> option (list (list R))) (n : nat)
    (e : list R * list (list R)) : Prop :=
  forall s, shape n n s ->
    (forall i j, (i < n)%nat -> (j < n)%nat -> ent s i j = ent (snd e) i j * sqrt (nth j (fst e) 0)) ->
    exists si, inv s = Some si /\ inverse_of n s si.

(** The point about which transform_to measures the bunch: the origin given, else the mean. *)
Definition centre (w : World RNum) (hits : list nat) (o : list (string * R)) (v : string) : R :=
  if in_dec string_dec v (List.map fst o) then entry o v else average w hits (stored_val w v).
Definition moments_about (w : World RNum) (hits : list nat) (p : string -> R) (ks : list string)
  : nat -> nat -> R :=
  fun i j => average w hits (fun l =>
    (stored_val w (nth i ks ""%string) l - p (nth i ks ""%string)) *
    (stored_val w (nth j ks ""%string) l - p (nth j ks ""%string))).
