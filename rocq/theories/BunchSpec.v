(** Vocabulary for the bunch properties. *)
From Coq Require Import Reals ZArith List Bool String.
From Verif Require Import Num WeightModel HitcoreModel HitcoreSpec BunchModel.
Import ListNotations.
Open Scope string_scope.

(** The statistics core holds the hits of the bunch, in the same order. *)
Definition in_step (b : Bunch) : Prop := b_core b = map Some (b_hits b).

(** The comparator always answers with a bool. *)
Definition total {N : NumOps} (cmp : PyVal N -> N -> CmpRes) : Prop :=
  forall v c, cmp v c = CBool true \/ cmp v c = CBool false.

(** [selected w name c l]: hit l has a value v of the variable with cmp(v, c). *)
Definition selected {N : NumOps} (get : World N -> string -> nat -> option (PyVal N))
    (cmp : PyVal N -> N -> CmpRes) (w : World N) (name : string) (c : N) (l : nat) : Prop :=
  exists v, get w name l = Some v /\ cmp v c = CBool true.

(** No scaling of the cut value. *)
Definition no_scale {N : NumOps} : World N -> Bunch -> string -> N -> option N :=
  fun _ _ _ c => Some c.

(** Bunch operations with a non negative index and without del. *)
Definition plain_op {N : NumOps} (op : BOp N) : Prop :=
  match op with
  | BAppend _ => True
  | BSet i _ => (0 <= i)%Z
  | BDel _ => False
  | BRemove _ _ => True
  end.

(** The variable list of hit l in world w, as the user reads it. *)
Definition same_values {N : NumOps} (w : World N) (vars : list string) (l l' : nat) : Prop :=
  forall v, In v vars -> hit_get w l v = hit_get w l' v.

(** Hits x and l have the same weight cell: the same track for global weights, the same
    object for local weights. *)
Definition shares_weight {N : NumOps} (is_global : bool) (w : World N) (x l : nat) : Prop :=
  if is_global then track w x = track w l else x = l.

(** [nums w vars l v]: v lists the values of the variables of hit l, as real numbers. *)
Definition real_of (v : PyVal RNum) : R :=
  match v with PFloat x => x | PInt z => IZR z | POther => 0%R end.

Definition reals_of (w : World RNum) (vars : list string) (l : nat) : list R :=
  map (fun n => match hit_get w l n with Some v => real_of v | None => 0%R end) vars.

(** Sum of |a_i - b_i|. *)
Fixpoint l1_dist (a b : list R) : R :=
  match a, b with
  | x :: r, y :: s => (Rabs (x - y) + l1_dist r s)%R
  | _, _ => 0%R
  end.

(** [zeroed g w w' sel]: going from w to w', the weight (global if g) of every hit that
    shares its weight with a selected hit has become 0; hits that do not are untouched;
    the other kind of weight and all other stored variables are untouched for all hits. *)
Definition zeroed {N : NumOps} (g : bool) (w w' : World N) (sel : nat -> Prop) : Prop :=
  let wt (is_global : bool) := if is_global then "global_weight" else "local_weight" in
  (forall y, is_hit w y -> (exists l, sel l /\ shares_weight g w y l) ->
      hit_get w' y (wt g) = Some (PFloat n0)) /\
  (forall y, is_hit w y -> ~ (exists l, sel l /\ shares_weight g w y l) ->
      forall n, hit_get w' y n = hit_get w y n) /\
  (forall y, is_hit w y -> hit_get w' y (wt (negb g)) = hit_get w y (wt (negb g))) /\
  (forall y n, stored n -> n <> "local_weight" -> hit_get w' y n = hit_get w y n).

(** The program never calls Hit.set_weight_context. *)
Definition never_switches {N : NumOps} (p : list (WOp N)) : Prop :=
  Forall (fun op => match op with WUse _ => False | _ => True end) p.

(** Some hit of the list has, exactly, the values of hit l. *)
Definition transmitted {N : NumOps} (w : World N) (test : list nat) (vars : list string)
    (l : nat) : Prop :=
  exists t, In t test /\ same_values w vars t l.
