(** Vocabulary for histories of cuts (C97).  All selections are made on the values hits have at the start. *)
From Coq Require Import Reals ZArith List Bool String.
From Verif Require Import Num WeightModel HitcoreModel HitcoreSpec BunchModel BunchSpec FlowModel.
Import ListNotations.
Open Scope string_scope.

(** The hits a call selects. *)
Definition selects (w : World RNum) (op : FlowOp RNum) (l : nat) : Prop :=
  match op with
  | FCut b cmp d _ => In l (b_hits b) /\ exists n c, In (n, c) d /\ selected (fun w n l => hit_get w l n) cmp w n c l
  | FTransmission b test vars _ _ => In l (b_hits b) /\ ~ transmitted w (b_hits test) vars l
  | FClear _ => False
  end.
(** The call sets the weight (global if g) of hit y to zero: it selects a hit with the same weight. *)
Definition zeroes (w : World RNum) (op : FlowOp RNum) (g : bool) (y : nat) : Prop :=
  match op with
  | FCut _ _ _ g' | FTransmission _ _ _ _ g' => g' = g /\ exists l, selects w op l /\ shares_weight g w y l
  | FClear _ => False
  end.
(** The call sets the local weight of hit y to 1. *)
Definition clears (op : FlowOp RNum) (g : bool) (y : nat) : Prop :=
  match op with FClear b => g = false /\ In y (b_hits b) | _ => False end.
Definition weight_of (g : bool) : string := if g then "global_weight" else "local_weight".

(** Bunches of hits; comparisons return bools and are made on stored variables other than weights; transmission is
    tested on integers. *)
Definition legal (w : World RNum) (op : FlowOp RNum) : Prop :=
  match op with
  | FCut b cmp d _ => in_step b /\ total cmp /\ (forall l, In l (b_hits b) -> is_hit w l) /\
      (forall n c, In (n, c) d -> stored n /\ n <> "local_weight")
  | FTransmission b test vars tol _ => (forall l, In l (b_hits b) -> is_hit w l) /\ (forall l, In l (b_hits test) -> is_hit w l) /\
      (forall n, In n vars -> In n stored_ints) /\ (0 < tol <= 1)%R
  | FClear b => forall l, In l (b_hits b) -> is_hit w l
  end.
Definition is_cut (op : FlowOp RNum) : Prop := match op with FClear _ => False | _ => True end.
