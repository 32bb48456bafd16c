(** Properties C01, C02, C03: weight contexts. *)
From Coq Require Import ZArith List Bool.
From Verif Require Import Num WeightModel WeightSpec WeightProofs.
Import ListNotations.
Open Scope Z_scope.

(** C01.  Operators act pointwise on weights and on the default, for every id,
    including ids stored in only one or in neither operand. *)
Theorem C01_context_context_pointwise :
  forall (N : NumOps) (o : BinOp) (a b : Context N),
    obtainable a -> obtainable b ->
    exists c, operate o (OCtx a) (OCtx b) = Some c /\
      (forall id, get_weight c id = num_op o (get_weight a id) (get_weight b id)) /\
      get_default_weight c = num_op o (get_default_weight a) (get_default_weight b).
Proof. exact ctx_ctx_pointwise. Qed.
Print Assumptions C01_context_context_pointwise.

Theorem C01_context_number_pointwise :
  forall (N : NumOps) (o : BinOp) (a : Context N) (v : N),
    exists c, operate o (OCtx a) (ONum v) = Some c /\
      (forall id, get_weight c id = num_op o (get_weight a id) v) /\
      get_default_weight c = num_op o (get_default_weight a) v.
Proof. exact ctx_num_pointwise. Qed.
Print Assumptions C01_context_number_pointwise.

(** number + context and number * context are the context operators (double addition
    and multiplication commute); number - context and number / context are rejected. *)
Theorem C01_number_context_pointwise :
  forall (N : NumOps) (o : BinOp) (a : Context N) (v : N),
    match o with
    | OpAdd | OpMul =>
        exists c, operate o (ONum v) (OCtx a) = Some c /\
          (forall id, get_weight c id = num_op o (get_weight a id) v) /\
          get_default_weight c = num_op o (get_default_weight a) v
    | OpSub | OpDiv => operate o (ONum v) (OCtx a) = None
    end.
Proof. exact num_ctx_pointwise. Qed.
Print Assumptions C01_number_context_pointwise.

(** Two obtainable contexts with one shared id, ids stored in only one of them and
    different defaults. *)
Definition ex_prog : list (Stmt ZNum) :=
  [ SNew 0%nat; SNew 1%nat;
    SSetWeight 0%nat (mkHitId 1 2 3) (5 : ZNum); SSetWeight 0%nat (mkHitId 0 9 1) (7 : ZNum);
    SSetWeight 1%nat (mkHitId 1 2 3) (2 : ZNum); SSetWeight 1%nat (mkHitId 1 2 4) (11 : ZNum);
    SSetDefault 1%nat (3 : ZNum); SBin 2%nat OpMul (AVar 0%nat) (AVar 1%nat) ].

Example C01_example :
  exists a b c : Context ZNum,
    obtainable a /\ obtainable b /\
    operate OpMul (OCtx a) (OCtx b) = Some c /\
    get_weight c (mkHitId 1 2 3) = 10 /\ get_weight c (mkHitId 0 9 1) = 21 /\
    get_weight c (mkHitId 1 2 4) = 11 /\ get_weight c (mkHitId 8 8 8) = 3.
Proof.
  eexists. eexists. eexists. split; [|split; [|split]].
  - exists ex_prog, 0%nat. reflexivity.
  - exists ex_prog, 1%nat. reflexivity.
  - reflexivity.
  - repeat split; reflexivity.
Qed.

(** C02.  Every program over any number of named contexts reads back what the abstract
    map semantics computes, for every variable and every id.  Aliases share an object;
    expression results are fresh objects. *)
Theorem C02_programs_refine_maps :
  forall (N : NumOps) (p : list (Stmt N)) (x : nat),
    match read_var (run store_empty p) x, as_read (a_run as_empty p) x with
    | Some c, Some a =>
        (forall id, get_weight c id = weight_of a id) /\ get_default_weight c = dflt a
    | None, None => True
    | _, _ => False
    end.
Proof. exact programs_refine. Qed.
Print Assumptions C02_programs_refine_maps.

Example C02_example :
  match read_var (run store_empty (ex_prog ++
          [SAlias 3%nat 0%nat; SSetWeight 3%nat (mkHitId 8 8 8) (100 : ZNum);
           SBin 4%nat OpSub (ANum (1 : ZNum)) (AVar 0%nat); SNot 5%nat 3%nat])) 5 with
  | Some c => get_weight c (mkHitId 8 8 8) = 0 /\ get_weight c (mkHitId 7 7 7) = 0
  | None => False
  end.
Proof. split; reflexivity. Qed.

(** C03.  Negation (Python ~a): values. *)
Theorem C03_not_values :
  forall (N : NumOps) (a : Context N) (id : HitId),
    (get_weight (operate_not a) id = n0 \/
     get_weight (operate_not a) id = get_default_weight a) /\
    get_default_weight (operate_not a) = n0.
Proof. intros; split; [apply not_values | reflexivity]. Qed.
Print Assumptions C03_not_values.

(** For a context produced by any program: an id that was given a weight has, after
    negation, the old default if that weight is zero and zero otherwise; an id without
    a weight of its own gets zero.  ([explicit] is the abstract, map valued reading of
    the same program, see C02.) *)
Theorem C03_not_table :
  forall (N : NumOps) (p : list (Stmt N)) (x : nat) (c : Context N) (a : AbsCtx N) (id : HitId),
    read_var (run store_empty p) x = Some c ->
    as_read (a_run as_empty p) x = Some a ->
    get_weight (operate_not c) id =
    match explicit a id with
    | Some w => if neqb w n0 then get_default_weight c else n0
    | None => n0
    end.
Proof. exact not_table. Qed.
Print Assumptions C03_not_table.

(** Negating twice gives weight zero everywhere ... *)
Theorem C03_not_not_is_zero :
  forall (N : NumOps) (a : Context N) (id : HitId),
    neqb (@n0 N) n0 = true ->
    get_weight (operate_not (operate_not a)) id = n0.
Proof. exact not_not_zero. Qed.
Print Assumptions C03_not_not_is_zero.

(** ... so reading ~ as a complement is refuted. *)
Theorem C03_not_involutive_refuted :
  exists (a : Context ZNum) (id : HitId),
    obtainable a /\ get_weight (operate_not (operate_not a)) id <> get_weight a id.
Proof.
  exists ctx_new, (mkHitId 0 0 0). split.
  - exists [SNew 0%nat], 0%nat. reflexivity.
  - discriminate.
Qed.
Print Assumptions C03_not_involutive_refuted.

Example C03_example :
  obtainable (set_weight ctx_new (mkHitId 1 1 1) (0 : ZNum)) /\
  get_weight (operate_not (set_weight ctx_new (mkHitId 1 1 1) (0 : ZNum))) (mkHitId 1 1 1) = 1 /\
  get_weight (operate_not (set_weight ctx_new (mkHitId 1 1 1) (5 : ZNum))) (mkHitId 1 1 1) = 0.
Proof.
  split; [|split; reflexivity].
  exists [SNew 0%nat; SSetWeight 0%nat (mkHitId 1 1 1) (0 : ZNum)], 0%nat. reflexivity.
Qed.
