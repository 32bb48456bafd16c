(** Property C77: copying and comparing bunches. *)
From Coq Require Import Reals ZArith Lia Lra List Bool String.
From Verif Require Import Num WeightModel HitcoreModel HitcoreSpec HitcoreProofs HitPyModel HitPyProofs BunchModel BunchSpec.
From Verif Require Import BunchNumModel CopyModel CopySpec CopyProofs HitcoreProps.
Import ListNotations.
Open Scope string_scope.
Open Scope nat_scope.

(** C77.  Bunch.new_from_hits: from any list of hits, whatever was done before, it makes new hits, one
    for each hit given (also if a hit is given twice), in order, with the same stored variables,
    and the statistics of the bunch see the same hits; no stored variable of an earlier hit
    changes. *)
Theorem C77_new_from_hits :
  forall (N : NumOps) (p : list (WOp N)) (ls : list nat),
    (forall l, In l ls -> is_hit (wrun p) l) ->
    exists w' b', new_from_hits (wrun p) ls = Some (w', b') /\ in_step b' /\
      copies (wrun p) w' ls (b_hits b') /\
      (forall g, is_hit (wrun p) g -> same_hit (wrun p) w' g g).
Proof.
  intros N p ls H. destruct (new_from_hits_copied N (wrun p) ls (wf_run N p) H) as (w' & b' & E & S & C).
  exists w', b'. split; auto. split; auto. split; [eapply eff_copies; eauto|]. intros g G. eapply eff_old_stored; eauto.
Qed.
Print Assumptions C77_new_from_hits.

(** C77.  Bunch.deepcopy: the same. *)
Theorem C77_deepcopy :
  forall (N : NumOps) (p : list (WOp N)) (b : Bunch),
    (forall l, In l (b_hits b) -> is_hit (wrun p) l) ->
    exists w' b', bunch_deepcopy (wrun p) b = Some (w', b') /\ in_step b' /\
      copies (wrun p) w' (b_hits b) (b_hits b') /\
      (forall g, is_hit (wrun p) g -> same_hit (wrun p) w' g g).
Proof.
  intros N p b H. destruct (deepcopy_copied N (wrun p) b (wf_run N p) H) as (w' & b' & E & S & C).
  exists w', b'. split; auto. split; auto. split; [eapply eff_copies; eauto|]. intros g G. eapply eff_old_stored; eauto.
Qed.
Print Assumptions C77_deepcopy.

(** What becomes of the weights: [l'] in the later state stands for the hit [l]. *)
Definition weight_kept {N} (w w' : World N) (ls : list nat) (l l' : nat) : Prop :=
  (~ track_is w l 0 0 0 \/ (forall k, In k ls -> track_is w k 0 0 0) -> forall n, hit_get w' l' n = hit_get w l n) /\
  (forall k, track_is w l 0 0 0 -> last_numbered w ls k -> hit_get w' l' "global_weight" = hit_get w k "global_weight").

Lemma kept_all N (w w' : World N) ls ls' : (forall l, In l ls -> is_hit w l) ->
  copied N w w' ls ls' (zero_after N w (get_weight (cur_ctx w) (mkHitId 0 0 0)) ls) ->
  Forall2 (weight_kept w w' ls) ls ls' /\ (forall g, is_hit w g -> weight_kept w w' ls g g).
Proof.
  intros H C. split.
  - apply (forall2_and _ _ _ _ (cp_same _ _ _ _ _ _ C)). intros x y I _ (h & h' & A & B & D & E). eapply eff_weight; eauto.
  - intros g G. unfold is_hit in G. destruct (w_hits w g) as [h|] eqn:E; [|congruence].
    eapply eff_weight; eauto. rewrite (cp_old _ _ _ _ _ _ C); congruence.
Qed.

(** C77.  Weights: for hits whose spill, event and particle numbers are not all 0, or if all the hits
    copied have them 0, every variable, weights included, is that of the original, and the
    originals keep theirs.  Otherwise every hit with all three 0, copied or not, ends with the
    global weight of the last hit copied that has not. *)
Theorem C77_weights :
  forall (N : NumOps) (p : list (WOp N)),
    (forall ls w' b', (forall l, In l ls -> is_hit (wrun p) l) -> new_from_hits (wrun p) ls = Some (w', b') ->
       Forall2 (weight_kept (wrun p) w' ls) ls (b_hits b') /\
       (forall g, is_hit (wrun p) g -> weight_kept (wrun p) w' ls g g)) /\
    (forall b w' b', (forall l, In l (b_hits b) -> is_hit (wrun p) l) -> bunch_deepcopy (wrun p) b = Some (w', b') ->
       Forall2 (weight_kept (wrun p) w' (b_hits b)) (b_hits b) (b_hits b') /\
       (forall g, is_hit (wrun p) g -> weight_kept (wrun p) w' (b_hits b) g g)).
Proof.
  intros N p. split.
  - intros ls w' b' H E. destruct (new_from_hits_copied N (wrun p) ls (wf_run N p) H) as (w2 & b2 & E' & _ & C).
    rewrite E in E'. injection E' as <- <-. apply kept_all; auto.
  - intros b w' b' H E. destruct (deepcopy_copied N (wrun p) b (wf_run N p) H) as (w2 & b2 & E' & _ & C).
    rewrite E in E'. injection E' as <- <-. apply kept_all; auto.
Qed.
Print Assumptions C77_weights.

Local Ltac hit := eapply (is_hit_of_get _ _ _ "spill"); vm_compute; reflexivity.

(** Three hits: 0 and 2 of track (1, 2, 3) with global weight 9, 1 of track (0, 0, 0) with weight 1. *)
Definition ex_b : Bunch := append (append (append bunch_new 0) 1) 2.
Example C77_copy_example :
  (forall l, In l (b_hits ex_b) -> is_hit (wrun ex_world) l) /\
  match bunch_deepcopy (wrun ex_world) ex_b with
  | Some (w', b') => b_hits b' = [6; 7; 8] /\ hit_get w' 6 "x" = Some (PFloat (5%Z : ZNum)) /\
      hit_get w' 6 "weight" = Some (PFloat (36%Z : ZNum)) /\ hit_get w' 8 "global_weight" = Some (PFloat (9%Z : ZNum))
  | None => False
  end /\
  match new_from_hits (wrun ex_world) [2; 0; 2] with
  | Some (w', b') => b_hits b' = [3; 4; 5] /\ hit_get w' 4 "x" = Some (PFloat (5%Z : ZNum))
  | None => False
  end.
Proof. split; [intros l [<- | [<- | [<- | []]]]; hit | vm_compute; repeat split; reflexivity]. Qed.

(** "Copying a bunch changes no hit" is refuted: a hit outside the bunch (here hit 1, weight 1), is
    given the weight 9 of the bunch copied, and so is its own copy. *)
Theorem C77_weights_refuted :
  exists (p : list (WOp ZNum)) (b b2 : Bunch),
    (forall l, In l (b_hits b) -> is_hit (wrun p) l) /\ ~ In 1 (b_hits b) /\ is_hit (wrun p) 1 /\
    hit_get (wrun p) 1 "global_weight" = Some (PFloat (1%Z : ZNum)) /\
    match bunch_deepcopy (wrun p) b with
    | Some (w', _) => hit_get w' 1 "global_weight" = Some (PFloat (9%Z : ZNum))
    | None => False
    end /\
    b_hits b2 = [0; 1] /\
    match bunch_deepcopy (wrun p) b2 with
    | Some (w', b') => b_hits b' = [5; 6] /\ hit_get w' 6 "global_weight" = Some (PFloat (9%Z : ZNum))
    | None => False
    end.
Proof.
  exists ex_world, (append bunch_new 0), (append (append bunch_new 0) 1).
  split; [intros l [<- | []]; hit|]. split; [intros [X|[]]; discriminate|].
  split; [hit|]. split; [vm_compute; reflexivity|]. split; [vm_compute; reflexivity|]. split; [reflexivity|].
  vm_compute. split; reflexivity.
Qed.
Print Assumptions C77_weights_refuted.

Open Scope R_scope.
(** C77.  Comparing bunches for which no covariances are set: b == c exactly if they have as many hits,
    each mean set in b is set in c to the same value within the tolerance, and the hits agree
    pairwise within it, in order. *)
Theorem C77_equal :
  forall (e : bool) (tol : R) (w : RWorld) (b c : Full), 0 <= tol < 1 -> fb_covs b = None -> fb_covs c = None ->
    (bunch_eq e tol w b c = true <->
     means_agree tol (fb_means b) (fb_means c) /\
     Forall2 (hits_agree tol w) (b_hits (fb_bunch b)) (b_hits (fb_bunch c))).
Proof.
  intros e tol w b c T B C. unfold bunch_eq. rewrite B, C. cbn [covs_verdict].
  destruct (Nat.eqb_spec (List.length (b_hits (fb_bunch b))) (List.length (b_hits (fb_bunch c)))) as [L|L]; cbn [negb].
  - pose proof (means_equal_meaning tol (fb_means b) (fb_means c)) as M.
    destruct (means_equal tol (fb_means b) (fb_means c)); cbn [negb].
    + rewrite hits_equal_meaning by auto. tauto.
    + split; [discriminate|]. intros [X _]. apply M in X. discriminate.
  - split; [discriminate|]. intros [_ F]. apply forall2_length in F. contradiction.
Qed.
Print Assumptions C77_equal.

(** C77.  hit_equality: the hits agree pairwise, within the standard tolerance of 1e-9. *)
Theorem C77_hit_equality :
  forall (w : RWorld) (b c : Bunch) (tol : R),
    hit_equality w b c tol = true <-> Forall2 (hits_agree (1 / 1000000000) w) (b_hits b) (b_hits c).
Proof.
  intros w b c tol. unfold hit_equality.
  destruct (Nat.eqb_spec (List.length (b_hits b)) (List.length (b_hits c))) as [L|L]; cbn [negb].
  - apply hits_equal_meaning; auto. unfold float_tolerance. lra.
  - split; [discriminate|]. intros F. apply forall2_length in F. contradiction.
Qed.
Print Assumptions C77_hit_equality.

(** C77.  A deep copy equals the original, at any tolerance; so does the bunch itself. *)
Theorem C77_copy_equal :
  forall (e : bool) (tol : R) (p : list (WOp RNum)) (b : Bunch) (means : list (string * R)),
    0 <= tol < 1 -> NoDup (map fst means) -> (forall l, In l (b_hits b) -> is_hit (wrun p) l) ->
    bunch_eq e tol (wrun p) (mkFull b None means) (mkFull b None means) = true /\
    forall w' b', bunch_deepcopy (wrun p) b = Some (w', b') ->
      bunch_eq e tol w' (mkFull b None means) (mkFull b' None means) = true /\ hit_equality w' b b' tol = true.
Proof.
  intros e tol p b means T ND H.
  assert (M : means_agree tol means means).
  { intros k x I. exists x. split; [apply lookup_in; auto|]. rewrite Rminus_diag_eq, Rabs_R0; lra. }
  split.
  - apply C77_equal; auto. split; auto. cbn [fb_bunch]. revert H. generalize (b_hits b). intros ls H.
    induction ls as [|l r IH]; constructor; auto with datatypes.
    specialize (H l (or_introl eq_refl)). unfold is_hit in H. destruct (w_hits (wrun p) l) as [h|] eqn:E; [|congruence].
    exists h, h. repeat split; auto. intros v. rewrite Rminus_diag_eq, Rabs_R0; lra.
  - intros w' b' E. destruct (deepcopy_copied RNum (wrun p) b (wf_run RNum p) H) as (w2 & b2 & E' & _ & C).
    rewrite E in E'. injection E' as <- <-.
    assert (F : forall t, 0 <= t -> Forall2 (hits_agree t w') (b_hits b) (b_hits b')).
    { intros t Ht. apply (forall2_and _ _ _ _ (cp_same _ _ _ _ _ _ C)). intros x y _ _ (h & k & A & B & D & I).
      exists h, k. rewrite (cp_old _ _ _ _ _ _ C) by congruence. repeat split; auto.
      intros v. rewrite D, Rminus_diag_eq, Rabs_R0; lra. }
    split; [apply C77_equal; auto; split; auto; apply F; lra|]. apply C77_hit_equality, F. lra.
Qed.
Print Assumptions C77_copy_equal.

Definition ex_hits : list (WOp RNum) := [WNew; WNew; WSet 0 "x" (@PFloat RNum 4); WSet 1 "x" (@PFloat RNum 5)].
Definition ex_one (l : nat) : Bunch := append bunch_new l.

Lemma ex_hits_agree tol : hits_agree tol (wrun ex_hits) 0 1 <-> 1 <= tol.
Proof.
  split.
  - intros (h & k & A & B & D & _). specialize (D Vx).
    injection A as <-. injection B as <-. cbn in D. rewrite Rabs_left in D; lra.
  - intros T. eexists; eexists. split; [reflexivity|]. split; [reflexivity|]. split; [|reflexivity].
    intros []; cbn; try (rewrite Rminus_diag_eq, Rabs_R0 by reflexivity; lra). rewrite Rabs_left; lra.
Qed.

Example C77_equal_example :
  bunch_eq true (1 / 2) (wrun ex_hits) (mkFull (ex_one 0) None []) (mkFull (ex_one 1) None []) = false /\
  bunch_eq true (1 / 2) (wrun ex_hits) (mkFull (ex_one 1) None [("x", 5)]) (mkFull (ex_one 1) None [("x", 5.1)]) = true.
Proof.
  split.
  - apply not_true_iff_false. rewrite C77_equal by (auto; lra). intros [_ F]. cbn in F. inversion F as [|? ? ? ? A]; subst.
    apply ex_hits_agree in A. lra.
  - apply C77_equal; auto; [lra|]. split.
    + intros k x [I|[]]. injection I as <- <-. exists 5.1. split; [reflexivity|]. rewrite Rabs_left; lra.
    + cbn. constructor; [|constructor]. eexists; eexists. split; [reflexivity|]. split; [reflexivity|]. split; [|reflexivity].
      intros v. rewrite Rminus_diag_eq, Rabs_R0 by reflexivity. lra.
Qed.

(** "b == c is c == b" is refuted: means set only in c go unnoticed by b == c. *)
Theorem C77_symmetric_refuted :
  exists (p : list (WOp RNum)) (b c : Full) (tol : R), 0 <= tol < 1 /\ fb_covs b = None /\ fb_covs c = None /\
    forall e, bunch_eq e tol (wrun p) b c = true /\ bunch_eq e tol (wrun p) c b = false.
Proof.
  exists ex_hits, (mkFull (ex_one 0) None []), (mkFull (ex_one 0) None [("x", 4)]), 0.
  split; [lra|]. split; auto. split; auto. intros e. split.
  - apply C77_equal; auto; [lra|]. split; [intros k x []|]. cbn. constructor; [|constructor].
    eexists; eexists. split; [reflexivity|]. split; [reflexivity|]. split; [|reflexivity].
    intros v. rewrite Rminus_diag_eq, Rabs_R0 by reflexivity. lra.
  - apply not_true_iff_false. rewrite C77_equal by (auto; lra). intros [M _]. destruct (M "x" 4) as (y & L & _); [left; auto|]. discriminate.
Qed.
Print Assumptions C77_symmetric_refuted.

(** C77.  "Bunches that differ are not equal" is refuted once covariances are set (F29): if both have
    a matrix of one shape, with two columns or more, then neither the matrices nor the hits are
    compared; only the number of hits and the means count. *)
Theorem C77_covariances_refuted :
  forall (e : bool) (tol : R) (w : RWorld) (b c : Full) (m m' : list (list R)) (r s : nat),
    fb_covs b = Some m -> fb_covs c = Some m' ->
    (1 <= r)%nat -> (2 <= s)%nat -> List.length m = r -> List.length m' = r ->
    (forall row, In row m \/ In row m' -> List.length row = s) ->
    (bunch_eq e tol w b c = true <->
     List.length (b_hits (fb_bunch b)) = List.length (b_hits (fb_bunch c)) /\ means_agree tol (fb_means b) (fb_means c)).
Proof.
  intros e tol w b c m m' r s B C R1 S2 L L' Sh. unfold bunch_eq. rewrite B, C. cbn [covs_verdict].
  replace (Nat.eqb (List.length m) (List.length m')) with true by (symmetry; apply Nat.eqb_eq; congruence).
  replace (forallb _ (combine m m')) with true.
  2: { symmetry. apply forallb_forall. intros [x y] I. apply Nat.eqb_eq. cbn [fst snd].
       rewrite (Sh x), (Sh y); auto; [right; eapply in_combine_r | left; eapply in_combine_l]; eauto. }
  replace (wide m) with true.
  2: { symmetry. apply existsb_exists. destruct m as [|row m0]; [cbn in L; lia|]. exists row. split; [left; auto|].
       apply Nat.leb_le. rewrite (Sh row); auto. left; left; auto. }
  cbn [andb negb]. rewrite <- means_equal_meaning.
  destruct (Nat.eqb_spec (List.length (b_hits (fb_bunch b))) (List.length (b_hits (fb_bunch c)))) as [E|E]; cbn [negb].
  - destruct (means_equal tol (fb_means b) (fb_means c)); cbn [negb]; split; auto. tauto.
  - split; [discriminate | tauto].
Qed.
Print Assumptions C77_covariances_refuted.

(** Two hits a unit apart and different matrices. *)
Example C77_covariances_example :
  ~ hits_agree (1 / 2) (wrun ex_hits) 0 1 /\
  bunch_eq true (1 / 2) (wrun ex_hits) (mkFull (ex_one 0) (Some [[1; 0]; [0; 1]]) []) (mkFull (ex_one 1) (Some [[7; 0]; [0; 7]]) []) = true.
Proof.
  split; [rewrite ex_hits_agree; lra|].
  eapply (C77_covariances_refuted _ _ _ _ _ [[1; 0]; [0; 1]] [[7; 0]; [0; 7]] 2 2); try reflexivity; auto.
  - intros row [[<- | [<- | []]] | [<- | [<- | []]]]; reflexivity.
  - split; [reflexivity|]. intros k x [].
Qed.

(** "hit_equality uses the tolerance it is given" is refuted. *)
Theorem C77_tolerance_refuted :
  exists (p : list (WOp RNum)) (b c : Bunch) (tol : R),
    Forall2 (hits_agree tol (wrun p)) (b_hits b) (b_hits c) /\ hit_equality (wrun p) b c tol = false.
Proof.
  exists ex_hits, (ex_one 0), (ex_one 1), 2. split.
  - cbn. constructor; [|constructor]. apply ex_hits_agree. lra.
  - apply not_true_iff_false. rewrite C77_hit_equality. cbn. intros F. inversion F as [|? ? ? ? A]; subst.
    apply ex_hits_agree in A. lra.
Qed.
Print Assumptions C77_tolerance_refuted.
