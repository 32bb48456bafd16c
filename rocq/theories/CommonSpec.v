(** Vocabulary for histograms, sorting, grids and shells. *)
From Coq Require Import Reals ZArith List Bool.
From Verif Require Import HitPySpec MomentSpec CommonModel.
Import ListNotations.
Open Scope list_scope.
Open Scope R_scope.

(** Edges in increasing order. *)
Definition increasing (l : list R) : Prop :=
  forall i j a b, (i <= j)%nat -> nth_error l i = Some a -> nth_error l j = Some b -> a <= b.

(** Value x is in bin p: lower edge included, upper edge excluded. *)
Definition in_bin (edges : list R) (p : nat) (x : R) : Prop :=
  exists a b, nth_error edges p = Some a /\ nth_error edges (S p) = Some b /\ a <= x < b.

(** Value x is between the first and the last edge. *)
Definition in_range (edges : list R) (x : R) : Prop :=
  exists a b, nth_error edges 0 = Some a /\ nth_error edges (length edges - 1) = Some b /\ a <= x < b.

(** Sum of the weights of the entries for which P holds. *)
Inductive sum_where {A} (P : A -> Prop) (w : A -> R) : list A -> R -> Prop :=
| sum_nil : sum_where P w [] 0
| sum_in : forall x l s, P x -> sum_where P w l s -> sum_where P w (x :: l) (w x + s)
| sum_out : forall x l s, ~ P x -> sum_where P w l s -> sum_where P w (x :: l) s.

(** The entries of a two dimensional histogram: x, y and weight. *)
Definition entries (xs ys ws : list R) : list (R * R * R) := combine (combine xs ys) ws.
Definition e_x (e : R * R * R) := fst (fst e).
Definition e_y (e : R * R * R) := snd (fst e).
Definition e_w (e : R * R * R) := snd e.

(** A matrix with n rows and k columns. *)
Definition shape (n k : nat) (m : list (list R)) : Prop :=
  length m = n /\ forall row, In row m -> length row = k.

(** Rows of a table given by its columns. *)
Definition row {A} (cols : list (list A)) (i : nat) : list (option A) :=
  map (fun c => nth_error c i) cols.
Definition table {A} (n : nat) (cols : list (list A)) : Prop :=
  forall c, In c cols -> length c = n.

(** Sum over all coordinates of v_i m_ij v_j. *)
Definition form (m : list (list R)) (v : list R) : R :=
  sum_n (length v) (fun i => sum_n (length v) (fun j => nth i v 0 * ent m i j * nth j v 0)).

Definition minus (a b : list R) : list R := map (fun xy => fst xy - snd xy) (combine a b).

(** A vector that is not 0. *)
Definition nonzero (v : list R) : Prop := exists i, nth i v 0 <> 0.

(** v^T m v > 0 for every vector v that is not 0. *)
Definition positive_definite (d : nat) (m : list (list R)) : Prop :=
  shape d d m /\ forall v, length v = d -> nonzero v -> 0 < form m v.

(** numpy.linalg.inv: an inverse is a matrix of the same shape with m m^-1 = 1. *)
Definition inverse_of (d : nat) (m minv : list (list R)) : Prop :=
  shape d d minv /\ exists one, is_product d m minv one /\ is_identity d one.
