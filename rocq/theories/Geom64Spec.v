(** Geometric emittances (C102). *)
From Coq Require Import String List.
Import ListNotations.

(** The position axes and their slopes. *)
Definition slopes : list (string * string) :=
  [("x", "x'"); ("y", "y'"); ("z", "z'"); ("t", "t'"); ("ct", "ct'")]%string.
