(** The mass shell in double precision (C92). *)
From Coq Require Import Reals ZArith Bool String List.
From Flocq Require Import Core BinarySingleNaN.
From Verif Require Import Num HitcoreModel FloatModel Bin64Spec Shell64Model.
Open Scope R_scope.

(** Zero, or neither huge nor tiny. *)
Definition moderate (x : b64) : Prop :=
  finite x = true /\ (value x = 0 \/ / 2 ^ 300 <= Rabs (value x) <= 2 ^ 300).

(** Within two units in the last place of what it should be, for any argument whose result is neither huge nor
    tiny; zero for zero. *)
Definition right_to (f : b64 -> b64) (g : R -> R) (x : b64) : Prop :=
  finite (f x) = true /\ Rabs (value (f x) - g (value x)) <= / 2 ^ 51 * g (value x).
Definition within (e : nat) (r : R) : Prop := r = 0 \/ / 2 ^ e <= r <= 2 ^ e.
Record accurate (L : PowLib) : Prop := {
  half_right : forall x, finite x = true -> 0 <= value x -> within 900 (value x) -> right_to (pow_half L) sqrt x;
  three_halves_right : forall x, finite x = true -> 0 <= value x -> within 620 (value x) ->
    right_to (pow_three_halves L) (fun r => r * sqrt r) x;
  two_right : forall x, finite x = true -> within 450 (Rabs (value x)) -> right_to (pow_two L) (fun r => r * r) x
}.

(** The stored value of a member of a hit. *)
Definition of_hit (h : FHit) (v : DblVar) : R := value (h_dbl (N := B64Num) h v).
(** The squares of momentum, mass and energy. *)
Definition psq (h : FHit) : R := of_hit h Vpx * of_hit h Vpx + of_hit h Vpy * of_hit h Vpy + of_hit h Vpz * of_hit h Vpz.
Definition msq (h : FHit) : R := of_hit h Vmass * of_hit h Vmass.
Definition esq (h : FHit) : R := of_hit h Venergy * of_hit h Venergy.

Definition moderate_hit (h : FHit) : Prop :=
  forall v, In v (Vpx :: Vpy :: Vpz :: Venergy :: Vmass :: nil)%list -> moderate (h_dbl (N := B64Num) h v).

(** The other members of a hit are as they were. *)
Definition others_kept (vs : list DblVar) (h h' : FHit) : Prop :=
  (forall v, ~ In v vs -> h_dbl (N := B64Num) h' v = h_dbl (N := B64Num) h v) /\ h_int (N := B64Num) h' = h_int (N := B64Num) h.
