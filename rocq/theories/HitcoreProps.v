(** Properties C05 - C09: hit storage, global weights, copying. *)
From Coq Require Import ZArith List Bool String.
From Verif Require Import Num WeightModel HitcoreModel HitcoreSpec HitcoreProofs.
Import ListNotations.
Open Scope string_scope.

Local Ltac hit := eapply (is_hit_of_get _ _ _ "spill"); vm_compute; reflexivity.

(** C05.  In every state a program can reach, setting a stored variable succeeds and
    reads back. *)
Theorem C05_set_then_get :
  forall (N : NumOps) (p : list (WOp N)) (l : nat) (n : string) (v r : PyVal N),
    is_hit (wrun p) l -> storable n v r ->
    snd (hit_set (wrun p) l n v) = true /\
    hit_get (fst (hit_set (wrun p) l n v)) l n = Some r.
Proof. intros; apply set_get; assumption. Qed.
Print Assumptions C05_set_then_get.

(** C05.  Whatever is set, in whatever hit, with whatever result: every other stored
    variable of that hit and every stored variable of every other hit is unchanged. *)
Theorem C05_set_changes_nothing_else :
  forall (N : NumOps) (p : list (WOp N)) (l l' : nat) (n n' : string) (v : PyVal N),
    stored n' -> (l' <> l \/ canonical n' <> canonical n) ->
    hit_get (fst (hit_set (wrun p) l n v)) l' n' = hit_get (wrun p) l' n'.
Proof. intros; apply set_frame; assumption. Qed.
Print Assumptions C05_set_changes_nothing_else.

(** C05.  A name that is not a variable is rejected and changes nothing. *)
Theorem C05_unknown_name_rejected :
  forall (N : NumOps) (p : list (WOp N)) (l : nat) (n : string) (v : PyVal N),
    ~ In n ("global_weight" :: stored_floats ++ stored_ints) ->
    snd (hit_set (wrun p) l n v) = false /\
    forall l' n', hit_get (fst (hit_set (wrun p) l n v)) l' n' = hit_get (wrun p) l' n'.
Proof.
  intros. destruct (set_unknown N (wrun p) l n v) as [H1 H2]; auto.
  split; auto. apply H2, wf_run.
Qed.
Print Assumptions C05_unknown_name_rejected.

(** C05.  A value of the wrong type is rejected, but only after the variable has been
    overwritten with -1: "rejected means unchanged" is refuted. *)
Theorem C05_rejected_value_unchanged_refuted :
  exists (p : list (WOp ZNum)) (l : nat) (n : string) (v : PyVal ZNum),
    is_hit (wrun p) l /\ stored n /\
    snd (hit_set (wrun p) l n v) = false /\
    hit_get (wrun p) l n = Some (PInt 7%Z) /\
    hit_get (fst (hit_set (wrun p) l n v)) l n = Some (PInt (-1)%Z).
Proof.
  exists [WNew; WSet 0%nat "spill" (PInt 7%Z)], 0%nat, "spill", (@PFloat ZNum 3%Z).
  split; [hit|]. split; [right; simpl; tauto|].
  repeat split; vm_compute; reflexivity.
Qed.
Print Assumptions C05_rejected_value_unchanged_refuted.

(** A reachable state with two hits on different tracks, a third hit sharing the track
    of the first, and weights. *)
Definition ex_world : list (WOp ZNum) :=
  [ WNew; WNew; WNew;
    WSet 0%nat "spill" (PInt 1%Z); WSet 0%nat "eventNumber" (PInt 2%Z);
    WSet 0%nat "particle_number" (PInt 3%Z); WSet 0%nat "x" (@PFloat ZNum 5%Z);
    WSet 2%nat "spill" (PInt 1%Z); WSet 2%nat "event_number" (PInt 2%Z);
    WSet 2%nat "particle_number" (PInt 3%Z);
    WSet 0%nat "global_weight" (@PFloat ZNum 9%Z);
    WSet 0%nat "local_weight" (@PFloat ZNum 4%Z) ].

Example C05_example :
  is_hit (wrun ex_world) 0 /\ storable (N := ZNum) "px" (PFloat (8%Z : ZNum)) (PFloat (8%Z : ZNum)) /\
  hit_get (fst (hit_set (wrun ex_world) 0 "px" (PFloat (8%Z : ZNum)))) 0 "x" = Some (PFloat (5%Z : ZNum)).
Proof.
  split; [hit|]. split; [constructor; simpl; tauto | vm_compute; reflexivity].
Qed.

(** C06.  Hits with the same three numbers read the same global weight. *)
Theorem C06_global_weight_shared :
  forall (N : NumOps) (p : list (WOp N)) (l l' : nat),
    is_hit (wrun p) l -> is_hit (wrun p) l' -> track (wrun p) l = track (wrun p) l' ->
    hit_get (wrun p) l "global_weight" = hit_get (wrun p) l' "global_weight".
Proof. intros; apply gw_shared; assumption. Qed.
Print Assumptions C06_global_weight_shared.

(** C06.  Setting it changes exactly the hits with the same three numbers. *)
Theorem C06_set_global_weight_exact :
  forall (N : NumOps) (p : list (WOp N)) (l l' : nat) (x : N),
    is_hit (wrun p) l -> is_hit (wrun p) l' ->
    let w' := fst (hit_set (wrun p) l "global_weight" (PFloat x)) in
    (track (wrun p) l' = track (wrun p) l ->
       hit_get w' l' "global_weight" = Some (PFloat x)) /\
    (track (wrun p) l' <> track (wrun p) l ->
       hit_get w' l' "global_weight" = hit_get (wrun p) l' "global_weight").
Proof. intros; apply gw_set_exact; auto using wf_run. Qed.
Print Assumptions C06_set_global_weight_exact.

(** C06.  The total weight is local times global. *)
Theorem C06_weight_is_product :
  forall (N : NumOps) (p : list (WOp N)) (l : nat),
    is_hit (wrun p) l ->
    exists lw gw, hit_get (wrun p) l "local_weight" = Some (PFloat lw) /\
                  hit_get (wrun p) l "global_weight" = Some (PFloat gw) /\
                  hit_get (wrun p) l "weight" = Some (PFloat (nmul lw gw)).
Proof. intros; apply weight_product; assumption. Qed.
Print Assumptions C06_weight_is_product.

(** C06.  clear_global_weights resets every hit to the default of the current context
    and touches no stored variable. *)
Theorem C06_clear_global_weights :
  forall (N : NumOps) (p : list (WOp N)) (l : nat),
    is_hit (wrun p) l ->
    hit_get (clear_global_weights (wrun p)) l "global_weight" =
      Some (PFloat (get_default_weight (cur_ctx (wrun p)))) /\
    forall n, stored n ->
      hit_get (clear_global_weights (wrun p)) l n = hit_get (wrun p) l n.
Proof.
  intros; split; [apply clear_weights_all; assumption |
                  intros; apply clear_weights_frame; assumption].
Qed.
Print Assumptions C06_clear_global_weights.

Example C06_example :
  is_hit (wrun ex_world) 0 /\ is_hit (wrun ex_world) 1 /\ is_hit (wrun ex_world) 2 /\
  track (wrun ex_world) 0 = track (wrun ex_world) 2 /\
  track (wrun ex_world) 0 <> track (wrun ex_world) 1 /\
  hit_get (wrun ex_world) 2 "global_weight" = Some (PFloat (9%Z : ZNum)) /\
  hit_get (wrun ex_world) 1 "global_weight" = Some (PFloat (1%Z : ZNum)) /\
  hit_get (wrun ex_world) 0 "weight" = Some (PFloat (36%Z : ZNum)).
Proof.
  do 3 (split; [hit|]). repeat split; vm_compute; first [reflexivity | discriminate].
Qed.

(** C07.  The context stores the weight of track (spill, event, particle) under the id
    (spill, particle, event) ... *)
Theorem C07_context_id_is_swapped :
  forall (N : NumOps) (p : list (WOp N)) (l : nat) (x : N) (s e q : Z),
    is_hit (wrun p) l -> track_is (wrun p) l s e q ->
    get_weight (cur_ctx (fst (hit_set (wrun p) l "global_weight" (PFloat x))))
               (mkHitId s q e) = x.
Proof. intros; apply hit_context_swapped; auto using wf_run. Qed.
Print Assumptions C07_context_id_is_swapped.

(** ... so the documented agreement (spill, event, particle) is refuted. *)
Theorem C07_context_agrees_refuted :
  exists (p : list (WOp ZNum)) (l : nat) (x : ZNum) (s e q : Z),
    is_hit (wrun p) l /\ track_is (wrun p) l s e q /\
    get_weight (cur_ctx (fst (hit_set (wrun p) l "global_weight" (PFloat x))))
               (mkHitId s e q) <> x.
Proof.
  exists ex_world, 0%nat, (6%Z : ZNum), 1%Z, 2%Z, 3%Z.
  split; [hit|]. split; vm_compute; first [reflexivity | discriminate].
Qed.
Print Assumptions C07_context_agrees_refuted.

Example C07_example :
  is_hit (wrun ex_world) 0 /\ track_is (wrun ex_world) 0 1 2 3.
Proof. split; [hit | vm_compute; reflexivity]. Qed.

(** C08.  In every reachable state deepcopy succeeds, returns a new hit that reads the
    same as the original under every name (weights included), and the original reads as
    before. *)
Theorem C08_deepcopy_faithful :
  forall (N : NumOps) (p : list (WOp N)) (l : nat),
    is_hit (wrun p) l ->
    let '(w', l', ok) := deepcopy (wrun p) l in
    ok = true /\ ~ is_hit (wrun p) l' /\ is_hit w' l' /\
    (forall n, hit_get w' l' n = hit_get (wrun p) l n) /\
    (forall n, hit_get w' l n = hit_get (wrun p) l n).
Proof. intros; apply copy_faithful; auto using wf_run. Qed.
Print Assumptions C08_deepcopy_faithful.

(** C08.  The same for pickling and unpickling. *)
Theorem C08_pickle_faithful :
  forall (N : NumOps) (p : list (WOp N)) (l : nat),
    is_hit (wrun p) l ->
    let '(w', l', ok) := pickle_roundtrip (wrun p) l in
    ok = true /\ ~ is_hit (wrun p) l' /\ is_hit w' l' /\
    (forall n, hit_get w' l' n = hit_get (wrun p) l n) /\
    (forall n, hit_get w' l n = hit_get (wrun p) l n).
Proof. intros; apply copy_faithful; auto using wf_run. Qed.
Print Assumptions C08_pickle_faithful.

Example C08_example :
  is_hit (wrun ex_world) 0 /\
  let '(w', l', ok) := deepcopy (wrun ex_world) 0 in
  hit_get w' l' "x" = Some (PFloat (5%Z : ZNum)) /\
  hit_get w' l' "weight" = Some (PFloat (36%Z : ZNum)).
Proof. split; [hit | vm_compute; split; reflexivity]. Qed.

(** C09.  What copying does to the other hits: stored variables never change; weights
    of hits on tracks other than (0,0,0) never change; hits on track (0,0,0) take over
    the global weight of the copied hit. *)
Theorem C09_copy_effect_on_others :
  forall (N : NumOps) (p : list (WOp N)) (l g : nat),
    is_hit (wrun p) l -> is_hit (wrun p) g ->
    let '(w', l', ok) := deepcopy (wrun p) l in
    (forall n, stored n -> hit_get w' g n = hit_get (wrun p) g n) /\
    (~ track_is (wrun p) g 0 0 0 -> forall n, hit_get w' g n = hit_get (wrun p) g n) /\
    (track_is (wrun p) g 0 0 0 ->
     hit_get w' g "global_weight" = hit_get (wrun p) l "global_weight").
Proof. intros; apply copy_collateral; auto using wf_run. Qed.
Print Assumptions C09_copy_effect_on_others.

(** C09.  So "copying leaves all other hits alone" is refuted. *)
Theorem C09_copy_leaves_others_alone_refuted :
  exists (p : list (WOp ZNum)) (l g : nat),
    is_hit (wrun p) l /\ is_hit (wrun p) g /\ l <> g /\
    let '(w', l', ok) := deepcopy (wrun p) l in
    hit_get w' g "weight" <> hit_get (wrun p) g "weight".
Proof.
  exists ex_world, 0%nat, 1%nat.
  do 2 (split; [hit|]). split; [discriminate|]. vm_compute. discriminate.
Qed.
Print Assumptions C09_copy_leaves_others_alone_refuted.

Example C09_example :
  is_hit (wrun ex_world) 0 /\ is_hit (wrun ex_world) 1 /\
  track_is (wrun ex_world) 1 0 0 0 /\ ~ track_is (wrun ex_world) 2 0 0 0.
Proof.
  do 2 (split; [hit|]). split; vm_compute; first [reflexivity | discriminate].
Qed.
