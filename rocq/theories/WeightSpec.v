(** Abstract meaning of weight contexts: a partial function from track ids to
    explicitly given weights, and a default for all other tracks.  Nothing here
    depends on how the code stores weights. *)
From Coq Require Import ZArith List Bool.
From Verif Require Import Num WeightModel.
Import ListNotations.

(** Ids are equal when their three numbers are equal. *)
Definition hid_dec : forall a b : HitId, {a = b} + {a <> b}.
Proof. decide equality; apply Z.eq_dec. Defined.

Section Spec.
  Variable N : NumOps.

  Record AbsCtx := mkAbs { explicit : HitId -> option N; dflt : N }.

  Definition weight_of (a : AbsCtx) (id : HitId) : N :=
    match explicit a id with Some w => w | None => dflt a end.

  Definition a_new : AbsCtx := mkAbs (fun _ => None) n1.

  Definition a_set (a : AbsCtx) (id : HitId) (w : N) : AbsCtx :=
    mkAbs (fun i => if hid_dec i id then Some w else explicit a i) (dflt a).

  Definition a_set_default (a : AbsCtx) (w : N) : AbsCtx := mkAbs (explicit a) w.

  Definition a_clear (a : AbsCtx) : AbsCtx := mkAbs (fun _ => None) (dflt a).

  (** Pointwise combination of two contexts. An id is explicit in the result when it
      is explicit in either operand. *)
  Definition a_bin (op : N -> N -> N) (a b : AbsCtx) : AbsCtx :=
    mkAbs (fun i => match explicit a i, explicit b i with
                    | None, None => None
                    | _, _ => Some (op (weight_of a i) (weight_of b i))
                    end)
          (op (dflt a) (dflt b)).

  Definition a_num (op : N -> N -> N) (a : AbsCtx) (v : N) : AbsCtx :=
    mkAbs (fun i => option_map (fun w => op w v) (explicit a i)) (op (dflt a) v).

  Definition a_not (a : AbsCtx) : AbsCtx :=
    mkAbs (fun i => option_map (fun w => if neqb w n0 then dflt a else n0)
                               (explicit a i)) n0.

  (** Abstract values of operands and of expressions. [None]: rejected. *)
  Inductive AOperand := AbsC (c : AbsCtx) | AbsN (v : N).

  Definition a_operate (o : BinOp) (l r : AOperand) : option AbsCtx :=
    match l, r with
    | AbsC a, AbsC b => Some (a_bin (num_op o) a b)
    | AbsC a, AbsN v => Some (a_num (num_op o) a v)
    | AbsN v, AbsC b =>
        match o with
        | OpAdd | OpMul => Some (a_num (num_op o) b v)
        | OpSub | OpDiv => None
        end
    | AbsN _, AbsN _ => None
    end.

  (** Abstract program states: names refer to objects, objects hold abstract
      contexts. *)
  Record AStore := mkAStore {
    as_env : nat -> option nat;
    as_obj : nat -> option AbsCtx;
    as_next : nat
  }.

  Definition as_empty : AStore := mkAStore (fun _ => None) (fun _ => None) 0.

  Definition as_read (s : AStore) (x : nat) : option AbsCtx :=
    match as_env s x with Some l => as_obj s l | None => None end.

  Definition as_arg (s : AStore) (a : Arg N) : option AOperand :=
    match a with
    | AVar x => option_map AbsC (as_read s x)
    | ANum v => Some (AbsN v)
    end.

  Definition as_bind (s : AStore) (x : nat) (c : AbsCtx) : AStore :=
    mkAStore (fupd (as_env s) x (as_next s)) (fupd (as_obj s) (as_next s) c)
             (S (as_next s)).

  Definition as_mutate (s : AStore) (x : nat) (f : AbsCtx -> AbsCtx) : option AStore :=
    match as_env s x with
    | Some l =>
        match as_obj s l with
        | Some c => Some (mkAStore (as_env s) (fupd (as_obj s) l (f c)) (as_next s))
        | None => None
        end
    | None => None
    end.

  Definition a_exec (s : AStore) (st : Stmt N) : option AStore :=
    match st with
    | SNew x => Some (as_bind s x a_new)
    | SAlias x y =>
        match as_env s y with
        | Some l => Some (mkAStore (fupd (as_env s) x l) (as_obj s) (as_next s))
        | None => None
        end
    | SSetWeight x id w => as_mutate s x (fun c => a_set c id w)
    | SSetDefault x w => as_mutate s x (fun c => a_set_default c w)
    | SClear x => as_mutate s x a_clear
    | SBin x o l r =>
        match as_arg s l, as_arg s r with
        | Some a, Some b =>
            match a_operate o a b with Some c => Some (as_bind s x c) | None => None end
        | _, _ => None
        end
    | SNot x y =>
        match as_read s y with
        | Some c => Some (as_bind s x (a_not c))
        | None => None
        end
    end.

  Definition a_run (s : AStore) (p : list (Stmt N)) : AStore :=
    fold_left (fun s st => match a_exec s st with Some s' => s' | None => s end) p s.

  (** A context the user can get hold of: the value of some variable after some
      program. *)
  Definition obtainable (c : Context N) : Prop :=
    exists p x, read_var (run store_empty p) x = Some c.

End Spec.

Arguments explicit {N} _ _.
Arguments dflt {N} _.
Arguments weight_of {N} _ _.
Arguments as_empty {N}.
Arguments as_read {N} _ _.
Arguments a_run {N} _ _.
Arguments obtainable {N} _.
