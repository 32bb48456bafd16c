(** Property C04: reference counting. *)
From Coq Require Import List Bool Arith.
From Verif Require Import SmartPtrModel SmartPtrSpec SmartPtrProofs.
Import ListNotations.

(** C04.  After every history of construction, copy, assignment, re-wrapping of raw
    pointers and destruction: no object was deleted twice, ref_count is the number of
    smart pointers referring to an object, and an object exists iff some smart pointer
    refers to it (no leak, no dangling pointer). *)
Theorem C04_refcounts_exact :
  forall (history : list SpOp),
    let s := sp_run history in
    sp_fault s = false /\
    (forall a, ref_count s a = holders s a) /\
    (forall a, alive s a <-> exists h, points_to s h a).
Proof. exact refcounts_exact. Qed.
Print Assumptions C04_refcounts_exact.

(** C04.  An object is deleted by exactly the step in which its last holder goes. *)
Theorem C04_deletion_exact :
  forall (history : list SpOp) (op : SpOp) (a : Addr),
    let s := sp_run history in
    let s' := sp_run (history ++ [op]) in
    (alive s a /\ ~ alive s' a) <-> (holders s a <> 0 /\ holders s' a = 0).
Proof. exact deletion_exact. Qed.
Print Assumptions C04_deletion_exact.

(** A history with sharing, self assignment, re-wrapping, reuse of a freed address. *)
Example C04_example :
  let s := sp_run [OpNew 0 7; OpCopy 1 0; OpAssign 1 1; OpRaw 2 1; OpDestroy 0;
                   OpSetNull 1; OpSetNew 2 8; OpNew 3 7; OpAssign 2 3] in
  ref_count s 7 = 2 /\ ref_count s 8 = 0 /\ sp_alive s = [7] /\ sp_fault s = false.
Proof. repeat split; reflexivity. Qed.
