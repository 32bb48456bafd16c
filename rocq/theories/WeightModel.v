(** Model of the statistical weight contexts.
    Source: xboa/core/cpplib/WeightContext.hh, WeightContext.hpp and the Python
    number protocol in xboa/core/pylib/PyWeightContext.cc. *)
From Coq Require Import ZArith List Bool.
From Verif Require Import Num.
Import ListNotations.

(** WeightContext.hh 109-119: class HitId.  C++ [int] is modelled by [Z]
    (no overflow). *)
Record HitId := mkHitId { hid_spill : Z; hid_event : Z; hid_particle : Z }.

(** WeightContext.hh 163-173: HitId::operator<. *)
Definition hid_ltb (a b : HitId) : bool :=
  if Z.eqb (hid_spill a) (hid_spill b) then
    if Z.eqb (hid_event a) (hid_event b) then
      Z.ltb (hid_particle a) (hid_particle b)
    else Z.ltb (hid_event a) (hid_event b)
  else Z.ltb (hid_spill a) (hid_spill b).

Section Ctx.
  Variable N : NumOps.

  (** WeightContext.hh 103-105: the data members.  The std::map is a list of
      key/value pairs kept sorted by [hid_ltb]; like std::map it only ever uses
      operator< to compare keys. *)
  Record Context := mkCtx {
    ctx_map : list (HitId * N);
    ctx_default : N
  }.

  (** std::map::find (as used in WeightContext.hpp 47). *)
  Fixpoint map_find (m : list (HitId * N)) (id : HitId) : option N :=
    match m with
    | [] => None
    | (k, v) :: rest =>
        if hid_ltb k id then map_find rest id
        else if hid_ltb id k then None
        else Some v
    end.

  (** std::map::operator[] followed by assignment (WeightContext.hpp 55). *)
  Fixpoint map_assign (m : list (HitId * N)) (id : HitId) (w : N)
    : list (HitId * N) :=
    match m with
    | [] => [(id, w)]
    | (k, v) :: rest =>
        if hid_ltb k id then (k, v) :: map_assign rest id w
        else if hid_ltb id k then (id, w) :: (k, v) :: rest
        else (k, w) :: rest
    end.

  (** std::map::insert with hint (WeightContext.hpp 67): no effect when the key is
      already present. *)
  Definition map_insert (m : list (HitId * N)) (id : HitId) (w : N)
    : list (HitId * N) :=
    match map_find m id with
    | Some _ => m
    | None => map_assign m id w
    end.

  (** WeightContext.hh 105 and the default constructor: empty map, default 1. *)
  Definition ctx_new : Context := mkCtx [] n1.

  (** WeightContext.hpp 46-52: getWeight. *)
  Definition get_weight (c : Context) (id : HitId) : N :=
    match map_find (ctx_map c) id with
    | None => ctx_default c
    | Some w => w
    end.

  (** WeightContext.hpp 54-56: setWeight. *)
  Definition set_weight (c : Context) (id : HitId) (w : N) : Context :=
    mkCtx (map_assign (ctx_map c) id w) (ctx_default c).

  (** WeightContext.hpp 58-61: clearWeights (the default is kept). *)
  Definition clear_weights (c : Context) : Context :=
    mkCtx [] (ctx_default c).

  (** WeightContext.hpp 152-154: getDefaultWeight. *)
  Definition get_default_weight (c : Context) : N := ctx_default c.

  (** WeightContext.hpp 156-158: setDefaultWeight. *)
  Definition set_default_weight (c : Context) (w : N) : Context :=
    mkCtx (ctx_map c) w.

  (** WeightContext.hpp 63-69: adoptHits. *)
  Definition adopt_hits (c rhs : Context) : Context :=
    mkCtx (fold_left (fun m kv => map_insert m (fst kv) (ctx_default c))
                     (ctx_map rhs) (ctx_map c))
          (ctx_default c).

  (** WeightContext.hpp 71-105: add, subtract, multiply, divide with a context.
      The four bodies differ only in the operator; [op] stands for += -= *= /=.
      The loop visits every stored key once and replaces its value, which is a
      [map] over the list of pairs. *)
  Definition op_context (op : N -> N -> N) (c rhs : Context) : Context :=
    let c1 := adopt_hits c rhs in
    mkCtx (map (fun kv => (fst kv, op (snd kv) (get_weight rhs (fst kv))))
               (ctx_map c1))
          (op (ctx_default c1) (ctx_default rhs)).

  (** WeightContext.hpp 107-137: add, subtract, multiply, divide with a double. *)
  Definition op_double (op : N -> N -> N) (c : Context) (v : N) : Context :=
    mkCtx (map (fun kv => (fst kv, op (snd kv) v)) (ctx_map c))
          (op (ctx_default c) v).

  (** WeightContext.hpp 139-149: op_not. *)
  Definition op_not (c : Context) : Context :=
    mkCtx (map (fun kv => (fst kv, if neqb (snd kv) n0 then ctx_default c else n0))
               (ctx_map c))
          n0.

  (** The binary operators of PyWeightContext.cc 270-276. *)
  Inductive BinOp := OpAdd | OpSub | OpMul | OpDiv.

  (** The primitive on doubles behind each operator. *)
  Definition num_op (o : BinOp) : N -> N -> N :=
    match o with
    | OpAdd => nadd
    | OpSub => nsub
    | OpMul => nmul
    | OpDiv => ndiv
    end.

  (** An operand of a Python expression: a context or something float() accepts
      (PyWeightContext.cc 195-208 parseArg). *)
  Inductive Operand := OCtx (c : Context) | ONum (v : N).

  (** WeightContext.hpp 160-229: the [operate] overloads.  The left context is
      copied first (WeightContext wc1 = lhs), so nothing is mutated.
      number - context and number / context throw. *)
  Definition operate (o : BinOp) (l r : Operand) : option Context :=
    match l, r with
    | OCtx a, OCtx b => Some (op_context (num_op o) a b)
    | OCtx a, ONum v => Some (op_double (num_op o) a v)
    | ONum v, OCtx b =>
        match o with
        | OpAdd => Some (op_double nadd b v)
        | OpMul => Some (op_double nmul b v)
        | OpSub => None
        | OpDiv => None
        end
    | ONum _, ONum _ => None   (* PyWeightContext.cc 236-239 *)
    end.

  (** WeightContext.hpp 231-235: Not::operate on a copy (Python: ~a). *)
  Definition operate_not (c : Context) : Context := op_not c.

  (** ---- Programs over named contexts ------------------------------------- *)

  (** An operand in a program: a named context or a number. *)
  Inductive Arg := AVar (x : nat) | ANum (v : N).

  (** Statements a Python user can write with weight contexts held in variables.
      [SSetWeight] etc. mutate the object held by the variable. [SAlias] is Python
      assignment x = y: both names then denote the same object. *)
  Inductive Stmt :=
  | SNew (x : nat)                                  (* x = WeightContext() *)
  | SAlias (x y : nat)                              (* x = y *)
  | SSetWeight (x : nat) (id : HitId) (w : N)       (* x.set_weight(w, id...) *)
  | SSetDefault (x : nat) (w : N)                   (* x.set_default_weight(w) *)
  | SClear (x : nat)                                (* clearing all weights *)
  | SBin (x : nat) (o : BinOp) (l r : Arg)          (* x = l op r *)
  | SNot (x y : nat).                               (* x = ~y *)

  (** Program state: variables hold locations, locations hold contexts.
      Location allocation is a counter. *)
  Record Store := mkStore {
    st_env : nat -> option nat;
    st_heap : nat -> option Context;
    st_next : nat
  }.

  Definition store_empty : Store := mkStore (fun _ => None) (fun _ => None) 0.

  Definition fupd {A} (f : nat -> option A) (k : nat) (v : A) : nat -> option A :=
    fun k' => if Nat.eqb k k' then Some v else f k'.

  Definition read_var (s : Store) (x : nat) : option Context :=
    match st_env s x with
    | Some l => st_heap s l
    | None => None
    end.

  Definition read_arg (s : Store) (a : Arg) : option Operand :=
    match a with
    | AVar x => option_map OCtx (read_var s x)
    | ANum v => Some (ONum v)
    end.

  (** Bind a fresh object to a variable (PyWeightContext.cc 265-267: a new Python
      object holding a new C++ context). *)
  Definition bind_new (s : Store) (x : nat) (c : Context) : Store :=
    mkStore (fupd (st_env s) x (st_next s))
            (fupd (st_heap s) (st_next s) c)
            (S (st_next s)).

  (** Mutate the object held by a variable. *)
  Definition mutate (s : Store) (x : nat) (f : Context -> Context) : option Store :=
    match st_env s x with
    | None => None
    | Some l =>
        match st_heap s l with
        | None => None
        | Some c => Some (mkStore (st_env s) (fupd (st_heap s) l (f c)) (st_next s))
        end
    end.

  (** One statement; [None] is a Python exception (unbound name or rejected
      operands), which leaves the state as it was. *)
  Definition exec (s : Store) (st : Stmt) : option Store :=
    match st with
    | SNew x => Some (bind_new s x ctx_new)
    | SAlias x y =>
        match st_env s y with
        | Some l => Some (mkStore (fupd (st_env s) x l) (st_heap s) (st_next s))
        | None => None
        end
    | SSetWeight x id w => mutate s x (fun c => set_weight c id w)
    | SSetDefault x w => mutate s x (fun c => set_default_weight c w)
    | SClear x => mutate s x clear_weights
    | SBin x o l r =>
        match read_arg s l, read_arg s r with
        | Some a, Some b =>
            match operate o a b with
            | Some c => Some (bind_new s x c)
            | None => None
            end
        | _, _ => None
        end
    | SNot x y =>
        match read_var s y with
        | Some c => Some (bind_new s x (operate_not c))
        | None => None
        end
    end.

  (** A program: failing statements are caught and leave the state unchanged. *)
  Definition run (s : Store) (p : list Stmt) : Store :=
    fold_left (fun s st => match exec s st with Some s' => s' | None => s end) p s.

End Ctx.

Arguments mkCtx {N} _ _.
Arguments ctx_map {N} _.
Arguments ctx_default {N} _.
Arguments map_find {N} _ _.
Arguments map_assign {N} _ _ _.
Arguments map_insert {N} _ _ _.
Arguments ctx_new {N}.
Arguments get_weight {N} _ _.
Arguments set_weight {N} _ _ _.
Arguments clear_weights {N} _.
Arguments get_default_weight {N} _.
Arguments set_default_weight {N} _ _.
Arguments adopt_hits {N} _ _.
Arguments op_context {N} _ _ _.
Arguments op_double {N} _ _ _.
Arguments op_not {N} _.
Arguments num_op {N} _ _ _.
Arguments OCtx {N} _.
Arguments ONum {N} _.
Arguments operate {N} _ _ _.
Arguments operate_not {N} _.
Arguments AVar {N} _.
Arguments ANum {N} _.
Arguments SNew {N} _.
Arguments SAlias {N} _ _.
Arguments SSetWeight {N} _ _ _.
Arguments SSetDefault {N} _ _.
Arguments SClear {N} _.
Arguments SBin {N} _ _ _ _.
Arguments SNot {N} _ _.
Arguments mkStore {N} _ _ _.
Arguments st_env {N} _ _.
Arguments st_heap {N} _ _.
Arguments st_next {N} _.
Arguments store_empty {N}.
Arguments read_var {N} _ _.
Arguments read_arg {N} _ _.
Arguments bind_new {N} _ _ _.
Arguments mutate {N} _ _ _.
Arguments exec {N} _ _.
Arguments run {N} _ _.
