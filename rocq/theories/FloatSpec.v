(** Bunches of hits with double precision numbers, and the exact weighted average of these numbers. *)
From Coq Require Import Reals ZArith String List.
From Flocq Require Import Core BinarySingleNaN.
From Verif Require Import Num HitcoreModel MomentSpec FloatModel.
Import ListNotations.
Open Scope R_scope.

(** hit[v] as a real number. *)
Definition num64 (w : World B64Num) (v : string) (l : nat) : R :=
  match hit_get w l v with Some (PFloat x) => B2R (x : b64) | _ => 0 end.
(** hit[v] is a float, neither infinite nor NaN. *)
Definition float64 (w : World B64Num) (v : string) (l : nat) : Prop :=
  exists x : b64, hit_get w l v = Some (@PFloat B64Num x) /\ is_finite x = true.

(** The exact weighted average over hits. *)
Definition weight64 (w : World B64Num) (hits : list nat) : R := rsum (num64 w "weight") hits.
Definition average64 (w : World B64Num) (hits : list nat) (f : nat -> R) : R :=
  rsum (fun l => num64 w "weight" l * f l) hits / weight64 w hits.

(** Weights between 2^-100 and 2^100, at most 2^50 hits, not almost no weight together. *)
Definition sane_weights (w : World B64Num) (hits : list nat) : Prop :=
  (forall l, In l hits -> float64 w "weight" l /\ / 2 ^ 100 <= num64 w "weight" l <= 2 ^ 100) /\
  INR (List.length hits) <= 2 ^ 50 /\ / 10 ^ 8 <= weight64 w hits.

(** Zero, or between 2^-100 and 2^100 in size. *)
Definition sane_size (x : R) : Prop := x = 0 \/ / 2 ^ 100 <= Rabs x <= 2 ^ 100.

(** n units of the relative precision of doubles. *)
Definition units (n : nat) : R := INR n * / 2 ^ 52.
