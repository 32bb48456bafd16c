From Coq Require Import Reals ZArith Arith Bool String Lra List Classical.
From Verif Require Import Num WeightModel HitcoreModel HitcoreSpec HitcoreProofs BunchModel BunchSpec BunchProofs
  MomentModel MomentSpec MomentProofs FlowModel FlowSpec.
Import ListNotations.
Open Scope string_scope.

Local Notation World := (World RNum).

Lemma similar_trans (w0 w1 w2 : World) : similar RNum w0 w1 -> similar RNum w1 w2 -> similar RNum w0 w2.
Proof.
  intros A B. constructor.
  - apply B.
  - rewrite (sim_cur _ _ _ B). apply A.
  - intros l. rewrite (sim_hit _ _ _ B). apply A.
  - intros l n S Hn. rewrite (sim_stored _ _ _ B) by auto. now apply (sim_stored _ _ _ A).
Qed.

Lemma share_similar (w0 w : World) g y l : similar RNum w0 w -> shares_weight g w y l <-> shares_weight g w0 y l.
Proof. intros S. destruct g; simpl; [|tauto]. rewrite !(similar_track _ _ _ _ S). tauto. Qed.

Section Extra.
  Variable extra : World -> list nat -> string -> nat -> option (PyVal RNum).

  Lemma cut_zeroed cmp (w : World) b d g :
    total cmp -> wf RNum w -> w_cur w = 0%nat -> in_step b -> (forall l, In l (b_hits b) -> is_hit w l) ->
    (forall n c, In (n, c) d -> stored n /\ n <> "local_weight") ->
    let (w', ok) := cut extra cmp no_scale w b d g in
    ok = true /\ similar RNum w w' /\ zeroed g w w' (selects w (FCut b cmp d g)).
  Proof.
    intros T W C Hb Hh Hd.
    pose proof (cut_dict_result RNum eq_refl extra cmp T g d w w b (fun _ => False)
      (similar_refl RNum w W) C Hb Hh Hd (cut_result_refl RNum g w)) as Q.
    destruct (cut extra cmp no_scale w b d g) as [w' ok].
    destruct Q as (-> & S & R1 & R2 & R3 & R4).
    { intros y Hy. right. intros (l & [] & _). }
    split; [reflexivity|]. split; [exact S|].
    assert (E : forall l, (False \/ exists n c, In (n, c) d /\ sel_of RNum extra cmp w (b_hits b) n c l) <->
      selects w (FCut b cmp d g) l).
    { intros l. unfold sel_of, selects, selected. split.
      - intros [[]|(n & c & Hd' & Hl & v & Hv & Hc)]. split; auto. exists n, c. split; auto.
        exists v. split; auto. unfold get_hit_variable in Hv.
        destruct (Hd n c Hd') as [Hs _]. destruct (stored_readable RNum w l n (Hh l Hl) Hs) as [u Hu].
        rewrite Hu in Hv. congruence.
      - intros (Hl & n & c & Hd' & v & Hv & Hc). right. exists n, c. split; auto. split; auto.
        exists v. split; auto. unfold get_hit_variable. rewrite Hv. reflexivity. }
    unfold zeroed. split; [|split; [|split; auto]].
    - intros y Hy (l & Hl & Hs). apply R1; auto. exists l. rewrite E. auto.
    - intros y Hy Hno. apply R2; auto. intros (l & Hl & Hs). apply Hno. exists l. rewrite <- E. auto.
  Qed.

  Lemma clear_step (w : World) b : wf RNum w -> (forall l, In l (b_hits b) -> is_hit w l) ->
    let w' := clear_local_weights w b in
    similar RNum w w' /\ (forall y, In y (b_hits b) -> hit_get w' y "local_weight" = Some (PFloat (1%R : RNum))) /\
    (forall y, is_hit w y -> ~ In y (b_hits b) -> hit_get w' y "local_weight" = hit_get w y "local_weight") /\
    (forall y, is_hit w y -> hit_get w' y "global_weight" = hit_get w y "global_weight").
  Proof.
    unfold clear_local_weights. revert w. induction (b_hits b) as [|x hs IH]; intros w W H; cbn [fold_left].
    - split; [now apply similar_refl|]. split; [intros y []|]. split; auto.
    - assert (E : fst (hit_set w x "local_weight" (PInt 1)) = fst (hit_set w x (BunchModel.weight_name false) (PFloat (1%R : RNum)))).
      { unfold hit_set. destruct (w_hits w x); reflexivity. }
      rewrite E. set (w1 := fst (hit_set w x (BunchModel.weight_name false) (PFloat (1%R : RNum)))).
      pose proof (similar_set RNum w w x false (1%R : RNum) (similar_refl RNum w W)) as S1. fold w1 in S1.
      assert (Hx : is_hit w x) by (apply H; now left).
      destruct (IH w1) as (S & A & B & C).
      + apply S1.
      + intros l Hl. apply S1. apply H. now right.
      + split; [now apply (similar_trans w w1)|]. split; [|split].
        * intros y [<- |Hy]; [|now apply A]. destruct (in_dec Nat.eq_dec x hs) as [I|I]; [now apply A|].
          rewrite B; [|now apply S1|exact I]. apply (weight_set_same RNum w w false x (1%R : RNum) x (similar_refl RNum w W) Hx Hx eq_refl).
        * intros y Hy Hn. rewrite B; [|now apply S1|intros I; apply Hn; now right].
          apply (weight_set_other RNum w w false x (1%R : RNum) y _ (similar_refl RNum w W) Hx Hy). simpl. intros ->. apply Hn. now left.
        * intros y Hy. rewrite C by (now apply S1). apply (other_weight_set RNum false w x (1%R : RNum) y).
  Qed.

  (** Selections do not depend on weights. *)
  Lemma selects_similar (w0 w : World) op l : similar RNum w0 w -> legal w0 op -> selects w op l <-> selects w0 op l.
  Proof.
    intros S L. destruct op as [b cmp d g|b test vars tol g|b]; cbn [selects legal] in *; [| |tauto].
    - destruct L as (_ & _ & _ & Hd). unfold selected.
      split; intros (I & n & c & J & v & V & F); split; auto; exists n, c; split; auto; exists v; split; auto;
        destruct (Hd n c J) as [A B]; [rewrite <- (sim_stored _ _ _ S)|rewrite (sim_stored _ _ _ S)]; auto.
    - destruct L as (_ & _ & Hv & _). unfold transmitted, same_values.
      assert (V : forall l m, In m vars -> hit_get w l m = hit_get w0 l m).
      { intros k m Hm. destruct (ints_stored vars Hv m Hm). now apply (sim_stored _ _ _ S). }
      split; intros (I & Q); split; auto; intros (t & T1 & T2); apply Q; exists t; split; auto; intros m Hm; specialize (T2 m Hm);
        rewrite ?V in * by auto; auto.
  Qed.

  (** One call. *)
  Definition step_ok (w0 w w1 : World) (op : FlowOp RNum) : Prop :=
    similar RNum w0 w1 /\ forall g y, is_hit w0 y ->
      (zeroes w0 op g y -> hit_get w1 y (weight_of g) = Some (PFloat (0%R : RNum))) /\
      (clears op g y -> hit_get w1 y (weight_of g) = Some (PFloat (1%R : RNum))) /\
      (~ zeroes w0 op g y -> ~ clears op g y -> hit_get w1 y (weight_of g) = hit_get w y (weight_of g)).

  Lemma zeroed_step (w0 w w1 : World) op g : similar RNum w0 w -> similar RNum w w1 -> legal w0 op ->
    zeroed g w w1 (selects w op) ->
    (forall g' y, zeroes w0 op g' y <-> g = g' /\ exists l, selects w0 op l /\ shares_weight g' w0 y l) ->
    (forall g' y, ~ clears op g' y) -> step_ok w0 w w1 op.
  Proof.
    intros S S1 L (Z1 & Z2 & Z3 & Z4) Hz Hc. split; [now apply (similar_trans w0 w)|]. intros g' y Hy.
    assert (Hy' : is_hit w y) by now apply S.
    split; [|split; [intros Q; now elim (Hc g' y)|]].
    - intros Q. apply Hz in Q. destruct Q as (<- & l & A & B). apply (Z1 y Hy'). exists l. split.
      + now apply (selects_similar w0 w).
      + now apply (share_similar w0 w).
    - intros NZ _. destruct (Bool.bool_dec g g') as [<- |Ng].
      + apply (Z2 y Hy'). intros (l & A & B). apply NZ, Hz. split; [reflexivity|]. exists l. split.
        * now apply (selects_similar w0 w) in A.
        * now apply (share_similar w0 w) in B.
      + replace g' with (negb g) by (destruct g, g'; try reflexivity; now elim Ng). apply (Z3 y Hy').
  Qed.

  Lemma step_result (w0 w : World) op : w_cur w0 = 0%nat -> similar RNum w0 w -> legal w0 op ->
    let (w1, ok) := flow_step extra w op in ok = true /\ step_ok w0 w w1 op.
  Proof.
    intros C S L. assert (Cw : w_cur w = 0%nat) by (rewrite (sim_cur _ _ _ S); exact C).
    destruct op as [b cmp d g|b test vars tol g|b]; cbn [flow_step].
    - pose proof L as (Hb & T & Hh & Hd).
      pose proof (cut_zeroed cmp w b d g T (sim_wf _ _ _ S) Cw Hb (fun l Hl => proj2 (sim_hit _ _ _ S l) (Hh l Hl)) Hd) as Q.
      destruct (cut extra cmp no_scale w b d g) as [w1 ok]. destruct Q as (-> & S1 & Z). split; [reflexivity|].
      apply (zeroed_step w0 w w1 _ g S S1 L Z); [intros g' y; reflexivity|intros g' y []].
    - pose proof L as (Hb & Ht & Hv & Tol).
      pose proof (transmission_int extra w b test vars tol g (sim_wf _ _ _ S) (fun l Hl => proj2 (sim_hit _ _ _ S l) (Hb l Hl))
        (fun l Hl => proj2 (sim_hit _ _ _ S l) (Ht l Hl)) Hv Tol) as Q.
      destruct (transmission_cut extra w b test vars tol g) as [w1 ok]. destruct Q as (-> & S1 & Z). split; [reflexivity|].
      apply (zeroed_step w0 w w1 _ g S S1 L Z); [intros g' y; reflexivity|intros g' y []].
    - split; [reflexivity|].
      destruct (clear_step w b (sim_wf _ _ _ S) (fun l Hl => proj2 (sim_hit _ _ _ S l) (L l Hl))) as (S1 & A & B & D).
      split; [now apply (similar_trans w0 w)|]. intros g y Hy. assert (Hy' : is_hit w y) by now apply S.
      split; [intros []|]. split; [intros [-> I]; now apply A|]. intros _ NC. destruct g; [now apply D|].
      apply B; [exact Hy'|]. intros I. apply NC. split; [reflexivity|exact I].
  Qed.

  (** The script. *)
  Lemma flow_ok (w0 : World) : w_cur w0 = 0%nat -> forall ops w, similar RNum w0 w -> Forall (legal w0) ops ->
    let (w', ok) := flow extra w ops in ok = true /\ similar RNum w0 w' /\
      forall g y, is_hit w0 y ->
        (Forall (fun op => ~ zeroes w0 op g y /\ ~ clears op g y) ops -> hit_get w' y (weight_of g) = hit_get w y (weight_of g)) /\
        (hit_get w y (weight_of g) = Some (PFloat (0%R : RNum)) -> Forall (fun op => ~ clears op g y) ops ->
           hit_get w' y (weight_of g) = Some (PFloat (0%R : RNum))) /\
        (hit_get w y (weight_of g) = Some (PFloat (1%R : RNum)) -> Forall (fun op => ~ zeroes w0 op g y) ops ->
           hit_get w' y (weight_of g) = Some (PFloat (1%R : RNum))).
  Proof.
    intros C. induction ops as [|op r IH]; intros w S L; cbn [flow]; [split; auto; split; auto; intros; auto|].
    inversion L as [|? ? L1 L2]; subst. pose proof (step_result w0 w op C S L1) as Q.
    destruct (flow_step extra w op) as [w1 ok]. destruct Q as (-> & S1 & Q). specialize (IH w1 S1 L2).
    destruct (flow extra w1 r) as [w' ok]. destruct IH as (-> & S' & IH). split; [reflexivity|]. split; [exact S'|].
    intros g y Hy. destruct (IH g y Hy) as (I1 & I2 & I3). destruct (Q g y Hy) as (Q1 & Q2 & Q3). split; [|split].
    - intros F. inversion F as [|? ? [F1 F2] F3]; subst. rewrite I1 by exact F3. now apply Q3.
    - intros E F. inversion F as [|? ? F1 F2]; subst. apply I2; [|exact F2].
      destruct (classic (zeroes w0 op g y)) as [Z|Z]; [now apply Q1|]. rewrite Q3 by assumption. exact E.
    - intros E F. inversion F as [|? ? F1 F2]; subst. apply I3; [|exact F2].
      destruct (classic (clears op g y)) as [Z|Z]; [now apply Q2|]. rewrite Q3 by assumption. exact E.
  Qed.

  Lemma flow_app (w : World) a b : flow extra w (a ++ b) = match flow extra w a with (w', true) => flow extra w' b | (w', false) => (w', false) end.
  Proof.
    revert w. induction a as [|op r IH]; intros w; cbn [flow app]; [reflexivity|].
    destruct (flow_step extra w op) as [w1 [|]]; [apply IH|reflexivity].
  Qed.
End Extra.
