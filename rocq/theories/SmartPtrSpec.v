(** Vocabulary for the smart pointer property. *)
From Coq Require Import List Bool Arith.
From Verif Require Import SmartPtrModel.
Import ListNotations.

(** Number of live smart pointers that point to an address. *)
Definition holders (s : SpState) (a : Addr) : nat :=
  length (filter (fun hp => match snd hp with Some b => Nat.eqb b a | None => false end)
                 (sp_handles s)).

Definition alive (s : SpState) (a : Addr) : Prop := In a (sp_alive s).

(** The (unique) pointer held by a handle. *)
Definition points_to (s : SpState) (h : Handle) (a : Addr) : Prop :=
  In (h, Some a) (sp_handles s).
