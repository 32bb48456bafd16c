(** Vocabulary for the multipole weighting. *)
From Coq Require Import Reals ZArith List Bool String.
From Verif Require Import Num HitcoreModel BunchModel BunchSpec HitPySpec MomentSpec CommonSpec.
Import ListNotations.
Open Scope R_scope.

(** The product of the variables of hit l to the powers t. *)
Definition monomial (vars : list string) (val : string -> nat -> R) (t : list nat) (l : nat) : R :=
  rprod (fun vp => val (fst vp) l ^ snd vp) (combine vars t).

(** The raw moment of the hits with powers t. *)
Definition raw_moment (w : World RNum) (hits : list nat) (vars : list string) (val : string -> nat -> R)
    (t : list nat) : R := average w hits (monomial vars val t).

(** Sum of two lists of powers. *)
Definition powers_add (s t : list nat) : list nat := map (fun p => (fst p + snd p)%nat) (combine s t).

(** Targets the weighting can work with: different lists of powers, one power for each
    variable, not all 0, with a sum of at most the maximum pole. *)
Definition usable_targets (n max : nat) (targets : list (list nat * R)) : Prop :=
  targets <> [] /\ NoDup (map fst targets) /\
  forall t g, In (t, g) targets -> List.length t = n /\ (1 <= list_sum t <= max)%nat.

(** 1 + sum of a_j x^j. *)
Definition polynomial (vars : list string) (val : string -> nat -> R) (targets : list (list nat * R))
    (a : list nat -> R) (l : nat) : R :=
  1 + rsum (fun jg => a (fst jg) * monomial vars val (fst jg) l) targets.

(** The mean over the hits, not weighted. *)
Definition plain_mean (hits : list nat) (f : nat -> R) : R := rsum f hits / INR (List.length hits).

(** What a call of set_target_moments is given: the lists of powers as Python ints. *)
Definition as_ints (targets : list (list nat * R)) : list (list (option Z)) :=
  map (fun tg => map (fun k => Some (Z.of_nat k)) (fst tg)) targets.
