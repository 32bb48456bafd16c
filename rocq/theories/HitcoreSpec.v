(** Vocabulary for the hit storage properties, in terms of variable names as they
    appear in the user interface. *)
From Coq Require Import ZArith List Bool String.
From Verif Require Import Num WeightModel HitcoreModel.
Import ListNotations.
Open Scope string_scope.

(** Variables stored in a hit that are floats. *)
Definition stored_floats : list string :=
  [ "x"; "y"; "z"; "t"; "px"; "py"; "pz"; "energy"; "mass";
    "bx"; "by"; "bz"; "ex"; "ey"; "ez"; "sx"; "sy"; "sz";
    "path_length"; "proper_time"; "e_dep"; "charge"; "local_weight" ].

(** Variables stored in a hit that are integers; two have an alias. *)
Definition stored_ints : list string :=
  [ "spill"; "event_number"; "eventNumber"; "particle_number"; "particleNumber";
    "station"; "status"; "pid" ].

Definition stored (n : string) : Prop := In n stored_floats \/ In n stored_ints.

(** Resolution of aliases. *)
Definition canonical (n : string) : string :=
  if String.eqb n "eventNumber" then "event_number"
  else if String.eqb n "particleNumber" then "particle_number"
  else n.

(** [storable n v r]: value v can be stored in n and reads back as r. *)
Inductive storable {N : NumOps} (n : string) : PyVal N -> PyVal N -> Prop :=
| storable_float : forall x, In n stored_floats -> storable n (PFloat x) (PFloat x)
| storable_int_as_float : forall z,
    In n stored_floats -> storable n (PInt z) (PFloat (nofZ z))
| storable_int : forall z,
    In n stored_ints -> (-2147483648 <= z < 2147483648)%Z ->
    storable n (PInt z) (PInt z).

Definition is_hit {N} (w : World N) (l : nat) : Prop := w_hits w l <> None.

(** The three numbers that identify the track of a hit. *)
Definition track {N} (w : World N) (l : nat)
  : option (PyVal N) * option (PyVal N) * option (PyVal N) :=
  (hit_get w l "spill", hit_get w l "event_number", hit_get w l "particle_number").

Definition track_is {N} (w : World N) (l : nat) (s e p : Z) : Prop :=
  track w l = (Some (PInt s), Some (PInt e), Some (PInt p)).
