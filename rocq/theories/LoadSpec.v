(** Vocabulary for loading bunches. *)
From Coq Require Import Reals ZArith List Bool String.
From Verif Require Import Num WeightModel HitcoreModel HitcoreSpec PyLibModel HitPyModel TableModel
  BunchModel BunchNumModel IOModel IOSpec.
Import ListNotations.
Open Scope string_scope.
Open Scope list_scope.

(** All hits of w are in w' with the same variables and weights. *)
Definition hits_kept (w w' : World RNum) : Prop :=
  forall l k, is_hit w l -> is_hit w' l /\ hit_get w' l k = hit_get w l k.

(** These are different hits that were not there before. *)
Definition new_hits (w w' : World RNum) (ls : list nat) : Prop :=
  NoDup ls /\ forall l, In l ls -> ~ is_hit w l /\ is_hit w' l.

(** Variable k of the hit is the integer z. *)
Definition value_is (w : World RNum) (k : string) (z : Z) (l : nat) : bool :=
  match hit_get w l k with Some (PInt z') => Z.eqb z z' | _ => false end.

(** The hits ls of one program and those read from their lines by another one: particles without a
    number in the format are not in the file. *)
Inductive reloaded_at (fmt : string) (w w' : World RNum) : list nat -> list nat -> Prop :=
| ra_nil : reloaded_at fmt w w' [] []
| ra_hit : forall l l' s s' pid ls ls',
    has_state w l s -> has_state w' l' s' -> has_pid w l pid -> writable fmt pid -> reads_back fmt s s' ->
    reloaded_at fmt w w' ls ls' -> reloaded_at fmt w w' (l :: ls) (l' :: ls')
| ra_skip : forall l pid ls ls',
    has_pid w l pid -> ~ writable fmt pid ->
    reloaded_at fmt w w' ls ls' -> reloaded_at fmt w w' (l :: ls) ls'.

(** int(variable k) of a hit read by a program with weights c. *)
Definition int_reading (c : RCtx) (k : string) (h : RHit) : Z :=
  match py_get (h, c) k with
  | inr (PInt z) => z
  | inr (PFloat x) => trunc x
  | _ => 0%Z
  end.
