(** Translations and foldings of hits in double precision (C95). *)
From Coq Require Import Reals ZArith Bool String List.
From Flocq Require Import Core BinarySingleNaN.
From Verif Require Import Num HitcoreModel FloatModel Bin64Spec Shell64Model Shell64Spec.
Import ListNotations.
Open Scope R_scope.

(** Zero, or neither huge nor tiny. *)
Definition ordinary (x : b64) : Prop :=
  finite x = true /\ (value x = 0 \/ / 2 ^ 200 <= Rabs (value x) <= 2 ^ 200).
(** A frequency. *)
Definition frequency (f : b64) : Prop := finite f = true /\ / 2 ^ 200 <= value f <= 2 ^ 200.

(** The member k of h' is that of h minus the offset o and a whole number of periods, and in the period around zero,
    up to rounding; all else is the same. *)
Definition folded (o f : b64) (k : DblVar) (h h' : FHit) : Prop :=
  let t := of_hit h k - value o in
  let err := 4 * / 2 ^ 53 * (Rabs t + / value f) in
  finite (h_dbl (N := B64Num) h' k) = true /\
  (exists n, Rabs (of_hit h' k - (t - IZR n / value f)) <= err) /\
  Rabs (of_hit h' k) <= / (2 * value f) + err /\
  others_kept [k] h h'.

(** The translation back. *)
Definition back (d : list (DblVar * b64)) : list (DblVar * b64) := map (fun q => (fst q, Bopp (snd q))) d.
