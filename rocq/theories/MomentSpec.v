(** Vocabulary for the statistics of bunches: weighted sums over the hits of a bunch,
    in terms of what the user reads from the hits. *)
From Coq Require Import Reals ZArith List String.
From Verif Require Import Num HitcoreModel HitcoreSpec BunchModel BunchSpec.
Import ListNotations.
Open Scope R_scope.

(** Sum and product of f over a list. *)
Fixpoint rsum {A} (f : A -> R) (l : list A) : R :=
  match l with [] => 0 | x :: r => f x + rsum f r end.
Fixpoint rprod {A} (f : A -> R) (l : list A) : R :=
  match l with [] => 1 | x :: r => f x * rprod f r end.

(** hit['weight'], as a real number. *)
Definition wt (w : World RNum) (l : nat) : R :=
  match hit_get w l "weight" with Some v => real_of v | None => 0 end.

(** Total weight of a list of hits, and weighted average of f over it. *)
Definition total_weight (w : World RNum) (hits : list nat) : R := rsum (wt w) hits.
Definition average (w : World RNum) (hits : list nat) (f : nat -> R) : R :=
  rsum (fun l => wt w l * f l) hits / total_weight w hits.

(** [readings extra w hits vars val]: every hit of the list has a number, val v l, for
    every variable v of vars (stored, weights, derived or bunch dependent). *)
Definition readings (extra : World RNum -> list nat -> string -> nat -> option (PyVal RNum))
    (w : World RNum) (hits : list nat) (vars : list string) (val : string -> nat -> R) : Prop :=
  forall v l, In v vars -> In l hits ->
    exists x, get_hit_variable extra w hits v l = Some x /\ x <> POther /\ real_of x = val v l.

(** Value of a mean dict at v. *)
Definition dict_has (d : list (string * PyVal RNum)) (v : string) (m : R) : Prop :=
  exists x, assoc d v = Some x /\ x <> POther /\ real_of x = m.

(** A dict of floats: all values are Python floats. *)
Definition float_values (d : list (string * R)) : list (string * PyVal RNum) :=
  map (fun p => (fst p, @PFloat RNum (snd p))) d.

(** A hit list usable for statistics: hits exist, weights do not add up to zero. *)
Definition has_weight (w : World RNum) (hits : list nat) : Prop :=
  (forall l, In l hits -> is_hit w l) /\ 1 / 1000000000 <= Rabs (total_weight w hits).

(** The value of a stored variable of hit l. *)
Definition stored_val (w : World RNum) (v : string) (l : nat) : R :=
  match hit_get w l v with Some x => real_of x | None => 0 end.

(** Coordinates: stored float variables other than the local weight. *)
Definition coordinate (v : string) : Prop := In v stored_floats /\ v <> "local_weight"%string.

(** Number of a variable in a mean dict: float m. *)
Definition dict_float (d : list (string * PyVal RNum)) (v : string) (m : R) : Prop :=
  assoc d v = Some (@PFloat RNum m).

(** No hit has negative weight. *)
Definition nonneg_weights (w : World RNum) (hits : list nat) : Prop :=
  forall l, In l hits -> 0 <= wt w l.
