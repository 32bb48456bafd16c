(** What a user of hit factories can see. *)
From Coq Require Import Reals ZArith List Bool String.
From Verif Require Import Num WeightModel HitcoreModel PyLibModel HitPyModel TableModel IOModel FactoryModel.
Import ListNotations.
Open Scope string_scope.
Open Scope list_scope.

(** The files that a program opens. *)
Fixpoint opened (p : list FOp) : list (list Line) :=
  match p with
  | [] => []
  | OOpen ls :: r => ls :: opened r
  | _ :: r => opened r
  end.

(** The results of make_hit on file f, with the kinds of the factories, in order. *)
Fixpoint requests (f : nat) (log : list Seen) : list (Kind * (FErr + RHit)) :=
  match log with
  | [] => []
  | SRead f' k r :: t => if Nat.eqb f' f then (k, r) :: requests f t else requests f t
  | _ :: t => requests f t
  end.
(** The results of next of generator g. *)
Fixpoint nexts (g : nat) (log : list Seen) : list (GOut RHit FErr) :=
  match log with
  | [] => []
  | SNext g' o :: t => if Nat.eqb g' g then o :: nexts g t else nexts g t
  | _ :: t => nexts g t
  end.
(** The pids warned about. *)
Fixpoint warned (log : list Seen) : list Z :=
  match log with
  | [] => []
  | SWarn p :: t => p :: warned t
  | _ :: t => warned t
  end.

(** The result of a factory of kind k for one line. *)
Definition of_line (c : RCtx) (k : Kind) (l : Line) (r : FErr + RHit) : Prop :=
  let res := match k with
             | KBuiltin fmt => read_hit fmt c (tokens l)
             | KUser cols us ms => read_user_hit cols us ms c (tokens l)
             end in
  match r with
  | inr h => res = RHitOk h
  | inl FBad => res = RBad
  | inl (FErr_ e) => res = RRaise e
  | inl FEof => False
  end.

(** Each request is answered from the next line, and with EOFError when there is none. *)
Inductive served (c : RCtx) : list Line -> list (Kind * (FErr + RHit)) -> Prop :=
  | served_none ls : served c ls []
  | served_line l ls k r rs : of_line c k l r -> served c ls rs -> served c (l :: ls) ((k, r) :: rs)
  | served_end k rs : served c [] rs -> served c [] ((k, inl FEof) :: rs).

(** The hits among some results. *)
Fixpoint hits_of (rs : list (Kind * (FErr + RHit))) : list RHit :=
  match rs with
  | [] => []
  | (_, inr h) :: t => h :: hits_of t
  | _ :: t => hits_of t
  end.

(** A pid whose mass or charge is not known. *)
Definition strange (p : Z) : Prop :=
  ~ In (Z.abs p) (map fst pdg_pid_to_mass) \/ ~ In p (map fst pdg_pid_to_charge).

(** A hit from a generator. *)
Definition yields {H E} (o : GOut H E) : bool := match o with GHit _ => true | _ => false end.

(** The first result of a generator of kind k on a file with some lines left, and how many of them
    it takes. *)
Inductive first_result (c : RCtx) (k : Kind) : list Line -> nat -> GOut RHit FErr -> Prop :=
  | first_hit l ls h : of_line c k l (inr h) -> first_result c k (l :: ls) 1 (GHit h)
  | first_error l ls e : of_line c k l (inl (FErr_ e)) -> first_result c k (l :: ls) 1 (GRaise (FErr_ e))
  | second_hit l l' ls h : of_line c k l (inl FBad) -> of_line c k l' (inr h) ->
      first_result c k (l :: l' :: ls) 2 (GHit h)
  | second_error l l' ls e : of_line c k l (inl FBad) -> of_line c k l' (inl (FErr_ e)) ->
      first_result c k (l :: l' :: ls) 2 (GRaise (FErr_ e))
  | second_bad l l' ls : of_line c k l (inl FBad) -> of_line c k l' (inl FBad) ->
      first_result c k (l :: l' :: ls) 2 GRuntime
  | second_end l : of_line c k l (inl FBad) -> first_result c k [l] 1 GRuntime
  | first_end : first_result c k [] 0 GRuntime.
