(** C97: histories of cuts. *)
From Coq Require Import Reals ZArith Arith Bool String Lra List Classical Permutation.
From Verif Require Import Num WeightModel HitcoreModel HitcoreSpec HitcoreProofs BunchModel BunchSpec BunchProofs
  MomentModel MomentSpec MomentProofs FlowModel FlowSpec FlowProofs.
Import ListNotations.
Open Scope string_scope.

(** A script of cuts on stored variables, transmission cuts on integers and calls of clear_local_weights runs through
    and leaves every stored variable other than the local weight as it was. *)
Theorem C97_runs extra (p : list (WOp RNum)) (ops : list (FlowOp RNum)) : never_switches p -> Forall (legal (wrun p)) ops ->
  let (w', ok) := flow extra (wrun p) ops in
  ok = true /\ (forall l, is_hit w' l <-> is_hit (wrun p) l) /\
  forall l n, stored n -> n <> "local_weight" -> hit_get w' l n = hit_get (wrun p) l n.
Proof.
  intros Hn L. pose proof (flow_ok extra (wrun p) (never_switches_cur p Hn) ops (wrun p) (similar_refl RNum _ (wf_run RNum p)) L) as Q.
  destruct (flow extra (wrun p) ops) as [w' ok]. destruct Q as (-> & S & _). split; [reflexivity|]. split; [apply S|apply S].
Qed.

(** The weight of a hit (local or global) is decided by the last call that concerns it: zero after a cut that selects
    it or a hit of its track, 1 after clear_local_weights, as at the start if there is none.  What a cut selects is
    decided by the values at the start, whatever has been cut before. *)
Theorem C97_weights extra (p : list (WOp RNum)) (ops : list (FlowOp RNum)) g y :
  never_switches p -> Forall (legal (wrun p)) ops -> is_hit (wrun p) y ->
  let w' := fst (flow extra (wrun p) ops) in
  (forall a op b, ops = (a ++ op :: b)%list -> zeroes (wrun p) op g y -> Forall (fun op => ~ clears op g y) b ->
     hit_get w' y (weight_of g) = Some (PFloat (0%R : RNum))) /\
  (forall a op b, ops = (a ++ op :: b)%list -> clears op g y -> Forall (fun op => ~ zeroes (wrun p) op g y) b ->
     hit_get w' y (weight_of g) = Some (PFloat (1%R : RNum))) /\
  (Forall (fun op => ~ zeroes (wrun p) op g y /\ ~ clears op g y) ops ->
     hit_get w' y (weight_of g) = hit_get (wrun p) y (weight_of g)).
Proof.
  intros Hn L Hy w'. pose proof (never_switches_cur p Hn) as C. pose proof (similar_refl RNum _ (wf_run RNum p)) as S0.
  assert (K : forall a op b, ops = (a ++ op :: b)%list -> exists w1 w2, step_ok (wrun p) w1 w2 op /\ w' = fst (flow extra w2 b) /\ Forall (legal (wrun p)) b).
  { intros a op b E. subst ops. apply Forall_app in L. destruct L as [La Lb]. inversion Lb as [|? ? L1 L2]; subst.
    pose proof (flow_ok extra (wrun p) C a (wrun p) S0 La) as Q. unfold w'. rewrite flow_app.
    destruct (flow extra (wrun p) a) as [w1 ok]. destruct Q as (-> & S1 & _). cbn [flow].
    pose proof (step_result extra (wrun p) w1 op C S1 L1) as Q2. destruct (flow_step extra w1 op) as [w2 ok]. destruct Q2 as (-> & Q2).
    exists w1, w2. split; [exact Q2|]. split; [reflexivity|exact L2]. }
  split; [|split].
  - intros a op b E Z F. destruct (K a op b E) as (w1 & w2 & (S2 & Q) & -> & Lb). destruct (Q g y Hy) as (Q1 & _ & _).
    pose proof (flow_ok extra (wrun p) C b w2 S2 Lb) as Q'. destruct (flow extra w2 b) as [w3 ok]. destruct Q' as (_ & _ & Q').
    apply (Q' g y Hy); [now apply Q1|exact F].
  - intros a op b E Z F. destruct (K a op b E) as (w1 & w2 & (S2 & Q) & -> & Lb). destruct (Q g y Hy) as (_ & Q2 & _).
    pose proof (flow_ok extra (wrun p) C b w2 S2 Lb) as Q'. destruct (flow extra w2 b) as [w3 ok]. destruct Q' as (_ & _ & Q').
    apply (Q' g y Hy); [now apply Q2|exact F].
  - intros F. unfold w'. pose proof (flow_ok extra (wrun p) C ops (wrun p) S0 L) as Q'.
    destruct (flow extra (wrun p) ops) as [w3 ok]. destruct Q' as (_ & _ & Q'). now apply (Q' g y Hy).
Qed.

Lemma cut_clears ops g y : Forall is_cut ops -> Forall (fun op => ~ clears op g y) ops.
Proof. apply Forall_impl. intros [] H; cbn in *; tauto. Qed.

Definition cut_away (w : World RNum) (ops : list (FlowOp RNum)) (g : bool) (y : nat) : Prop := exists op, In op ops /\ zeroes w op g y.

(** With cuts only: zero if any of them concerns the hit, else as at the start. *)
Theorem C97_cuts extra (p : list (WOp RNum)) (ops : list (FlowOp RNum)) g y :
  never_switches p -> Forall (legal (wrun p)) ops -> Forall is_cut ops -> is_hit (wrun p) y ->
  let w' := fst (flow extra (wrun p) ops) in
  (cut_away (wrun p) ops g y -> hit_get w' y (weight_of g) = Some (PFloat (0%R : RNum))) /\
  (~ cut_away (wrun p) ops g y -> hit_get w' y (weight_of g) = hit_get (wrun p) y (weight_of g)).
Proof.
  intros Hn L K Hy w'. destruct (C97_weights extra p ops g y Hn L Hy) as (A & _ & B). split.
  - intros (op & I & Z). apply in_split in I. destruct I as (a & b & E). apply (A a op b E Z).
    apply cut_clears. rewrite E in K. apply Forall_app in K. destruct K as [_ K]. now inversion K.
  - intros N. apply B. apply Forall_forall. intros op I. split; [intros Z; apply N; now exists op|].
    apply (proj1 (Forall_forall _ _) (cut_clears ops g y K) op I).
Qed.

(** The order of the cuts does not matter, nor does making one of them twice: every reading of every hit is the same. *)
Theorem C97_order extra (p : list (WOp RNum)) (ops ops' : list (FlowOp RNum)) :
  never_switches p -> Forall (legal (wrun p)) ops -> Forall is_cut ops -> (forall op, In op ops <-> In op ops') ->
  forall y n, is_hit (wrun p) y ->
    hit_get (fst (flow extra (wrun p) ops)) y n = hit_get (fst (flow extra (wrun p) ops')) y n.
Proof.
  intros Hn L K E y n Hy.
  assert (L' : Forall (legal (wrun p)) ops') by (apply Forall_forall; intros op I; apply (proj1 (Forall_forall _ _) L), E, I).
  assert (K' : Forall is_cut ops') by (apply Forall_forall; intros op I; apply (proj1 (Forall_forall _ _) K), E, I).
  pose proof (C97_runs extra p ops Hn L) as R1. pose proof (C97_runs extra p ops' Hn L') as R2.
  assert (W : forall g, hit_get (fst (flow extra (wrun p) ops)) y (weight_of g) = hit_get (fst (flow extra (wrun p) ops')) y (weight_of g)).
  { intros g. destruct (C97_cuts extra p ops g y Hn L K Hy) as [A B]. destruct (C97_cuts extra p ops' g y Hn L' K' Hy) as [A' B'].
    assert (Ec : cut_away (wrun p) ops g y <-> cut_away (wrun p) ops' g y).
    { split; intros (op & I & Z); exists op; split; auto; now apply E. }
    destruct (classic (cut_away (wrun p) ops g y)) as [D|D].
    - rewrite A by exact D. symmetry. apply A'. now apply Ec.
    - rewrite B by exact D. symmetry. apply B'. intros D'. now apply D, Ec. }
  destruct (flow extra (wrun p) ops) as [w1 o1], (flow extra (wrun p) ops') as [w2 o2]. cbn [fst] in *.
  destruct R1 as (_ & H1 & S1), R2 as (_ & H2 & S2). apply reads_determined.
  - now apply H1.
  - now apply H2.
  - intros m Hm. destruct (string_dec m "local_weight") as [-> |D]; [apply (W false)|]. rewrite S1, S2 by assumption. reflexivity.
  - apply (W true).
Qed.

(** The weight of a bunch after the cuts is the sum of the weights, at the start, of the hits that no cut concerns. *)
Theorem C97_total extra (p : list (WOp RNum)) (ops : list (FlowOp RNum)) (b : Bunch) :
  never_switches p -> Forall (legal (wrun p)) ops -> Forall is_cut ops -> (forall l, In l (b_hits b) -> is_hit (wrun p) l) ->
  exists keep : nat -> bool,
    (forall l, In l (b_hits b) ->
       (keep l = true <-> ~ cut_away (wrun p) ops false l /\ ~ cut_away (wrun p) ops true l)) /\
    bunch_weight (fst (flow extra (wrun p) ops)) b = rsum (wt (wrun p)) (filter keep (b_hits b)).
Proof.
  intros Hn L K Hb. set (w' := fst (flow extra (wrun p) ops)).
  set (P := fun l => ~ cut_away (wrun p) ops false l /\ ~ cut_away (wrun p) ops true l).
  assert (D : exists keep : nat -> bool, forall l, In l (b_hits b) -> (keep l = true <-> P l)).
  { clear Hb. induction (b_hits b) as [|x r IH]; [exists (fun _ => true); intros l []|].
    destruct IH as [k Hk]. destruct (classic (P x)) as [Px|Px].
    - exists (fun l => if Nat.eqb l x then true else k l). intros l [<- |I]; [rewrite Nat.eqb_refl; tauto|].
      destruct (Nat.eqb_spec l x) as [-> |]; [tauto|now apply Hk].
    - exists (fun l => if Nat.eqb l x then false else k l). intros l [<- |I]; [rewrite Nat.eqb_refl; split; [discriminate|tauto]|].
      destruct (Nat.eqb_spec l x) as [-> |]; [split; [discriminate|tauto]|now apply Hk]. }
  destruct D as [keep Hk]. exists keep. split; [exact Hk|].
  pose proof (C97_runs extra p ops Hn L) as R1. destruct (flow extra (wrun p) ops) as [w1 ok] eqn:Ef. cbn [fst] in w'.
  destruct R1 as (_ & H1 & S1).
  rewrite bunch_weight_total by (intros l I; apply H1, Hb, I). unfold total_weight.
  assert (W : forall l, In l (b_hits b) -> wt w' l = if keep l then wt (wrun p) l else 0%R).
  { intros l I. pose proof (Hb l I) as Hl. assert (Hl' : is_hit w' l) by now apply H1.
    destruct (weight_product RNum (wrun p) l Hl) as (lw & gw & A1 & A2 & A3).
    destruct (weight_product RNum w' l Hl') as (lw' & gw' & B1 & B2 & B3).
    destruct (C97_cuts extra p ops false l Hn L K Hl) as [F1 F2]. destruct (C97_cuts extra p ops true l Hn L K Hl) as [G1 G2].
    rewrite Ef in F1, F2, G1, G2. cbn [fst weight_of] in F1, F2, G1, G2. fold w' in F1, F2, G1, G2.
    unfold wt. rewrite A3, B3. cbn [real_of nmul RNum].
    destruct (keep l) eqn:Ek.
    - apply Hk in Ek; [|exact I]. destruct Ek as [E1 E2]. rewrite (F2 E1), A1 in B1. rewrite (G2 E2), A2 in B2.
      injection B1 as ->. injection B2 as ->. reflexivity.
    - assert (NP : ~ P l) by (intros Q; apply Hk in Q; [congruence|exact I]). unfold P in NP.
      destruct (classic (cut_away (wrun p) ops false l)) as [D|D].
      + rewrite (F1 D) in B1. injection B1 as <-. apply Rmult_0_l.
      + destruct (classic (cut_away (wrun p) ops true l)) as [D2|D2]; [|tauto]. rewrite (G1 D2) in B2. injection B2 as <-. apply Rmult_0_r. }
  clear - W. induction (b_hits b) as [|x r IH]; cbn [rsum filter]; [reflexivity|].
  rewrite W by (now left). rewrite IH by (intros l I; apply W; now right). destruct (keep x); cbn [rsum]; lra.
Qed.

(** So cuts never add weight. *)
Theorem C97_less extra (p : list (WOp RNum)) (ops : list (FlowOp RNum)) (b : Bunch) :
  never_switches p -> Forall (legal (wrun p)) ops -> Forall is_cut ops -> (forall l, In l (b_hits b) -> is_hit (wrun p) l) ->
  nonneg_weights (wrun p) (b_hits b) ->
  (0 <= bunch_weight (fst (flow extra (wrun p) ops)) b <= bunch_weight (wrun p) b)%R.
Proof.
  intros Hn L K Hb NN. destruct (C97_total extra p ops b Hn L K Hb) as (keep & _ & E).
  match goal with |- (0 <= ?x <= _)%R => replace x with (rsum (wt (wrun p)) (filter keep (b_hits b))) by (symmetry; exact E) end.
  rewrite bunch_weight_total by exact Hb. unfold total_weight. clear - NN. unfold nonneg_weights in NN.
  induction (b_hits b) as [|x r IH]; cbn [rsum filter]; [lra|].
  specialize (IH (fun l I => NN l (or_intror I))). pose proof (NN x (or_introl eq_refl)). destruct (keep x); cbn [rsum]; lra.
Qed.

(** The order matters for cuts on weights: a local cut on x > 3 and a global cut on local_weight < 1. *)
Definition flow_hits : list (WOp ZNum) :=
  [WNew; WNew; WSet 0 "x" (@PFloat ZNum 5%Z); WSet 1 "x" (@PFloat ZNum 1%Z); WSet 0 "particle_number" (PInt 1%Z); WSet 1 "particle_number" (PInt 2%Z)].
Definition flow_bunch : Bunch := append (append bunch_new 0) 1.
Definition z_gt (v : PyVal ZNum) (c : ZNum) : CmpRes := CBool (Z.ltb c (@num_of ZNum v)).
Definition z_lt (v : PyVal ZNum) (c : ZNum) : CmpRes := CBool (Z.ltb (@num_of ZNum v) c).
Definition no_more {N : NumOps} : World N -> list nat -> string -> nat -> option (PyVal N) := fun _ _ _ _ => None.
Theorem C97_order_refuted :
  let a := FCut (N := ZNum) flow_bunch z_gt [("x", 3%Z : ZNum)] false in
  let b := FCut (N := ZNum) flow_bunch z_lt [("local_weight", 1%Z : ZNum)] true in
  let (w1, ok1) := flow no_more (wrun flow_hits) [a; b] in
  let (w2, ok2) := flow no_more (wrun flow_hits) [b; a] in
  ok1 = true /\ ok2 = true /\ hit_get w1 0 "global_weight" = Some (PFloat (0%Z : ZNum)) /\
  hit_get w2 0 "global_weight" = Some (PFloat (1%Z : ZNum)).
Proof. vm_compute. repeat split; reflexivity. Qed.
(** It matters too with clear_local_weights in between. *)
Theorem C97_clear_order_refuted :
  let a := FCut (N := ZNum) flow_bunch z_gt [("x", 3%Z : ZNum)] false in
  let c := FClear (N := ZNum) flow_bunch in
  hit_get (fst (flow no_more (wrun flow_hits) [a; c])) 0 "local_weight" = Some (PFloat (1%Z : ZNum)) /\
  hit_get (fst (flow no_more (wrun flow_hits) [c; a])) 0 "local_weight" = Some (PFloat (0%Z : ZNum)).
Proof. vm_compute. split; reflexivity. Qed.

(** The hypotheses hold: two cuts on x, as in Example_3, and a transmission cut. *)
Definition flow_real : list (WOp RNum) :=
  [WNew; WNew; WSet 0 "x" (@PFloat RNum 5); WSet 1 "x" (@PFloat RNum 1); WSet 0 "particle_number" (PInt 1%Z); WSet 1 "particle_number" (PInt 2%Z)].
Definition r_gt (v : PyVal RNum) (c : RNum) : CmpRes := CBool (if Rlt_dec c (real_of v) then true else false).
Definition r_lt (v : PyVal RNum) (c : RNum) : CmpRes := CBool (if Rlt_dec (real_of v) c then true else false).
Definition flow_ops : list (FlowOp RNum) :=
  [FCut flow_bunch r_gt [("x", 3%R : RNum)] false; FCut flow_bunch r_lt [("x", (-3)%R : RNum)] false;
   FTransmission flow_bunch (append bunch_new 1) ["particle_number"] (1%R : RNum) true].
Example C97_ex : never_switches flow_real /\ Forall (legal (wrun flow_real)) flow_ops /\ Forall is_cut flow_ops /\
  (forall l, In l (b_hits flow_bunch) -> is_hit (wrun flow_real) l) /\
  cut_away (wrun flow_real) flow_ops false 0 /\ cut_away (wrun flow_real) flow_ops true 0 /\
  ~ cut_away (wrun flow_real) flow_ops false 1 /\ ~ cut_away (wrun flow_real) flow_ops true 1.
Proof.
  assert (Tg : total r_gt) by (intros v c; unfold r_gt; destruct (Rlt_dec c (real_of v)); tauto).
  assert (Tl : total r_lt) by (intros v c; unfold r_lt; destruct (Rlt_dec (real_of v) c); tauto).
  assert (H : forall l, In l (b_hits flow_bunch) -> is_hit (wrun flow_real) l).
  { intros l [<- |[<- |[]]]; vm_compute; discriminate. }
  assert (X0 : hit_get (wrun flow_real) 0 "x" = Some (PFloat (5%R : RNum))) by reflexivity.
  assert (X1 : hit_get (wrun flow_real) 1 "x" = Some (PFloat (1%R : RNum))) by reflexivity.
  assert (N0 : hit_get (wrun flow_real) 0 "particle_number" = Some (PInt 1%Z)) by reflexivity.
  assert (N1 : hit_get (wrun flow_real) 1 "particle_number" = Some (PInt 2%Z)) by reflexivity.
  assert (St : forall c0 n c, In (n, c) [("x", c0 : RNum)] -> stored n /\ n <> "local_weight").
  { intros c0 n c [E|[]]. injection E as <- <-. split; [left; simpl; tauto|discriminate]. }
  assert (Nt : ~ transmitted (wrun flow_real) [1%nat] ["particle_number"] 0).
  { intros (t & [<- |[]] & Q). specialize (Q "particle_number" (or_introl eq_refl)). rewrite N0, N1 in Q. discriminate. }
  assert (T1 : transmitted (wrun flow_real) [1%nat] ["particle_number"] 1) by (exists 1%nat; split; [now left|intros v _; reflexivity]).
  split; [repeat constructor|]. split; [|split; [repeat constructor|split; [exact H|]]].
  - constructor; [|constructor; [|constructor; [|constructor]]].
    + split; [reflexivity|]. split; [exact Tg|]. split; [exact H|apply St].
    + split; [reflexivity|]. split; [exact Tl|]. split; [exact H|apply St].
    + split; [exact H|]. split; [intros l [<- |[]]; vm_compute; discriminate|]. split; [|lra].
      intros n [<- |[]]. simpl. tauto.
  - split; [|split; [|split]].
    + exists (FCut flow_bunch r_gt [("x", 3%R : RNum)] false). split; [now left|]. split; [reflexivity|]. exists 0%nat. split; [|reflexivity].
      split; [now left|]. exists "x", (3%R : RNum). split; [now left|]. exists (PFloat (5%R : RNum)). split; [exact X0|].
      unfold r_gt. cbn [real_of]. destruct (Rlt_dec 3 5); [reflexivity|lra].
    + eexists. split; [right; right; left; reflexivity|]. split; [reflexivity|]. exists 0%nat. split; [|reflexivity]. split; [now left|exact Nt].
    + intros (op & [<- |[<- |[<- |[]]]] & Q & l & (I & Z) & S); [| |discriminate Q]; cbn [shares_weight] in S; subst l;
        destruct Z as (n & c & [E|[]] & v & V & F); injection E as <- <-; rewrite X1 in V; injection V as <-; unfold r_gt, r_lt in F; cbn [real_of] in F.
      * destruct (Rlt_dec 3 1); [lra|discriminate].
      * destruct (Rlt_dec 1 (-3)); [lra|discriminate].
    + intros (op & [<- |[<- |[<- |[]]]] & Q & l & (I & Z) & S); [discriminate Q|discriminate Q|]. cbn [shares_weight] in S.
      destruct I as [<- |[<- |[]]]; [|now apply Z]. unfold track in S. rewrite N0, N1 in S. discriminate S.
Qed.

Print Assumptions C97_runs.
Print Assumptions C97_weights.
Print Assumptions C97_cuts.
Print Assumptions C97_order.
Print Assumptions C97_total.
Print Assumptions C97_less.
Print Assumptions C97_order_refuted.
Print Assumptions C97_clear_order_refuted.
