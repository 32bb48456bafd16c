(** Vocabulary for the closed orbit finder. *)
From Coq Require Import Reals List String.
From Verif Require Import Num HitPySpec CommonSpec EllipseModel.
Import ListNotations.
Open Scope R_scope.

(** [passes track same h chunks e]: a particle is tracked from h; the hits after the first are the
    first chunk; it is tracked again from the last of them, and so on until e.  Each time the last
    hit is not the one tracked from. *)
Inductive passes {H : Type} (track : H -> list H) (same : H -> H -> bool) : H -> list (list H) -> H -> Prop :=
| no_pass : forall h, passes track same h [] h
| one_pass : forall h chunk final chunks e,
    tl (track h) = chunk ++ [final] -> same final h = false ->
    passes track same final chunks e ->
    passes track same h ((chunk ++ [final]) :: chunks) e.

(** The value of x^T A x for the offset x of a point from a centre. *)
Definition distance (d : nat) (A : nat -> nat -> R) (centre : nat -> R) (p : list R) : R :=
  sum_n d (fun a => sum_n d (fun b => (nth a p 0 - centre a) * A a b * (nth b p 0 - centre b))).

(** A is the inverse of V. *)
Definition inverse_fun (d : nat) (V A : nat -> nat -> R) : Prop :=
  forall i j, (i < d)%nat -> (j < d)%nat -> sum_n d (fun k => V i k * A k j) = if Nat.eqb i j then 1 else 0.

(** Reading and writing a variable of a hit: what is written is read, the other variables stay. *)
Definition read_write {H : Type} (vars : list string) (get : H -> string -> R) (set : H -> string -> R -> H) : Prop :=
  forall h k v x, In k vars -> In v vars -> get (set h k x) v = if String.eqb v k then x else get h v.
