(** Vocabulary for user defined text formats. *)
From Coq Require Import Reals ZArith List Bool String.
From Verif Require Import Num WeightModel HitcoreModel HitcoreSpec PyLibModel HitPyModel TableModel
  BunchModel BunchNumModel IOModel IOSpec.
Import ListNotations.
Open Scope string_scope.
Open Scope list_scope.
Open Scope R_scope.

(** A format: every column is unused (the empty name), a stored float, or one of these integers. *)
Definition format_ints : list string :=
  ["event_number"; "eventNumber"; "particle_number"; "particleNumber"; "station"; "status"; "pid"].
Definition plain_format (cols : list string) : Prop :=
  forall k, In k cols -> k = "" \/ In k stored_floats \/ In k format_ints.

(** Every column has a unit; that of integers is 1. *)
Definition plain_units (cols : list string) (us : list (string * string)) : Prop :=
  forall k, In k cols -> k <> "" -> exists u f, assoc us k = Some u /\ assoc units u = Some f /\ (In k format_ints -> f = 1).

(** The format has variable k, perhaps under its other name. *)
Definition in_format (cols : list string) (k : string) : bool :=
  existsb (fun c => String.eqb (canonical c) (canonical k)) cols.

(** The particle the reader sees: 0 without a column for it. *)
Definition particle_seen (cols : list string) (pid : Z) : Z := if in_format cols "pid" then pid else 0%Z.
(** The reader can find mass and charge, in the file or in the tables. *)
Definition particle_known (cols : list string) (pid : Z) : Prop :=
  (in_format cols "mass" = false -> zassoc pdg_pid_to_mass (Z.abs (particle_seen cols pid)) <> None) /\
  (in_format cols "charge" = false -> zassoc pdg_pid_to_charge (particle_seen cols pid) <> None).

(** [user_reads_back cols s s']: s' is s as far as the format goes; mass and charge, if not in the
    file, come from the particle, the rest is that of a new hit. *)
Definition user_reads_back (cols : list string) (s s' : PSt) : Prop :=
  exists pid, py_get s "pid" = inr (PInt pid) /\
  forall k, stored k ->
    py_get s' k =
    if in_format cols k then py_get s k
    else if String.eqb k "mass" then inr (@PFloat RNum (mass_for (particle_seen cols pid)))
    else if String.eqb k "charge" then inr (@PFloat RNum (charge_for (particle_seen cols pid)))
    else py_get (hit_new, snd s') k.

(** What a column of a written line holds for a hit in state s. *)
Definition user_column_holds (us : list (string * string)) (s : PSt) (k : string) (t : Tok) : Prop :=
  (k = "" /\ t = TInt 0) \/
  (exists z, k <> "" /\ py_get s k = inr (PInt z) /\ t = TInt z) \/
  (exists x y u f, k <> "" /\ py_get s k = inr (@PFloat RNum x) /\ assoc us k = Some u /\
     assoc units u = Some f /\ t = TNum y /\ y * f = x).

(** The line of a hit of a program. *)
Definition user_line (w : World RNum) (cols : list string) (us : list (string * string)) (l : nat) (line : Line) : Prop :=
  exists s ts, has_state w l s /\ line = LData ts /\ Forall2 (user_column_holds us s) cols ts.

(** The hit read from it, by a program with weights c. *)
Definition user_reloaded (w : World RNum) (cols : list string) (c : RCtx) (l : nat) (h : RHit) : Prop :=
  exists s, has_state w l s /\ user_reads_back cols s (h, c).
