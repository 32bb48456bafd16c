(** Vocabulary for copies of bunches. *)
From Coq Require Import Reals ZArith List Bool String.
From Verif Require Import Num WeightModel HitcoreModel HitcoreSpec BunchModel BunchSpec BunchNumModel CopyModel.
Import ListNotations.
Open Scope string_scope.

(** The hit at l' in world w' has the variables that the hit at l had in world w. *)
Definition same_hit {N} (w w' : World N) (l l' : nat) : Prop :=
  forall n, stored n -> hit_get w' l' n = hit_get w l n.
Definition same_weight {N} (w w' : World N) (l l' : nat) : Prop :=
  hit_get w' l' "global_weight" = hit_get w l "global_weight" /\ hit_get w' l' "weight" = hit_get w l "weight".

(** [ls'] are new objects, one for each of [ls], in order. *)
Definition copies {N} (w w' : World N) (ls ls' : list nat) : Prop :=
  NoDup ls' /\ (forall l', In l' ls' -> ~ is_hit w l') /\
  Forall2 (fun l l' => is_hit w' l' /\ same_hit w w' l l') ls ls'.

(** The last hit of a list that is not of track (0, 0, 0). *)
Inductive last_numbered {N} (w : World N) : list nat -> nat -> Prop :=
| last_here : forall ls l rest, ~ track_is w l 0 0 0 -> (forall k, In k rest -> track_is w k 0 0 0) ->
    last_numbered w (ls ++ l :: rest) l.

Open Scope R_scope.
(** Two hits agree within a tolerance. *)
Definition hits_agree (tol : R) (w : RWorld) (l l' : nat) : Prop :=
  exists h h', w_hits w l = Some h /\ w_hits w l' = Some h' /\
    (forall v, Rabs (h_dbl h v - h_dbl h' v) <= tol) /\ (forall i, h_int h i = h_int h' i).
(** Every mean set in a is set in b, to nearly the same value. *)
Definition means_agree (tol : R) (a b : list (string * R)) : Prop :=
  forall k x, In (k, x) a -> exists y, lookup b k = Some y /\ Rabs (x - y) <= tol.
