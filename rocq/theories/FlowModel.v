(** Model of an analysis that makes one cut after another: a script of calls of Bunch.cut, Bunch.transmission_cut and
    Bunch.clear_local_weights (xboa/bunch/_bunch.py 799-883) on bunches that may share hits and tracks, as in
    xboa/examples/Example_3.py 39-73.  The script stops at the first exception. *)
From Coq Require Import List Bool String.
From Verif Require Import Num WeightModel HitcoreModel BunchModel BunchSpec.
Import ListNotations.

Section Flow.
  Context {N : NumOps}.
  Variable extra : World N -> list nat -> string -> nat -> option (PyVal N).

  Inductive FlowOp :=
  | FCut (b : Bunch) (cmp : PyVal N -> N -> CmpRes) (d : list (string * N)) (global : bool)
  | FTransmission (b test : Bunch) (vars : list string) (tol : N) (global : bool)
  | FClear (b : Bunch).

  (** One call; false: it raised. *)
  Definition flow_step (w : World N) (op : FlowOp) : World N * bool :=
    match op with
    | FCut b cmp d g => cut extra cmp no_scale w b d g
    | FTransmission b test vars tol g => transmission_cut extra w b test vars tol g
    | FClear b => (clear_local_weights w b, true)
    end.

  (** The script. *)
  Fixpoint flow (w : World N) (ops : list FlowOp) : World N * bool :=
    match ops with
    | [] => (w, true)
    | op :: r => match flow_step w op with (w', false) => (w', false) | (w', true) => flow w' r end
    end.
End Flow.
Arguments FlowOp N : clear implicits.
