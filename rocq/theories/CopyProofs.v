(** Proofs for copies and comparisons of bunches. *)
From Coq Require Import Reals ZArith Lia Lra List Bool String.
From Verif Require Import Num WeightModel WeightSpec WeightProofs HitcoreModel HitcoreSpec HitcoreProofs PyLibModel BunchModel BunchSpec BunchProofs.
From Verif Require Import HitPyModel HitPySpec HitPyProofs BunchNumModel CopyModel CopySpec.
Import ListNotations.
Open Scope list_scope.
Open Scope nat_scope.

Section C.
Variable N : NumOps.
Notation World := (World N).
Notation zero_id := (mkHitId 0 0 0).

(** A hit made from the dictionary of another, taken earlier. *)
Lemma copy_core2 (c c0 : Context N) (h : Hit N) :
  (forall i, (-2147483648 <= h_int h i < 2147483648)%Z) ->
  let '(h', c', b) := core_set_all N c0 hit_new
    (flat_map (fun k => match core_get c h k with Some v => [(k, v)] | None => [] end) set_names) in
  b = true /\ (forall d, h_dbl h' d = h_dbl h d) /\ (forall i, h_int h' i = h_int h i) /\
  c' = set_weight c0 zero_id (global_weight c h).
Proof.
  intros Hi.
  assert (Hw : forall i, wrap32 (h_int h i) = h_int h i) by (intros; apply wrap32_id; auto).
  assert (Hl : forall i, in_long (h_int h i) = true) by (intros; apply in_long_range; auto).
  cbn -[wrap32 in_long set_weight get_weight global_weight].
  rewrite !Hl. cbn -[wrap32 in_long set_weight get_weight global_weight].
  repeat split; auto.
  - intros d; destruct d; reflexivity.
  - intros i; destruct i; simpl; auto.
Qed.
Lemma make_effect (w0 w : World) l h :
  wf N w -> w_hits w0 l = Some h -> (forall i, (-2147483648 <= h_int h i < 2147483648)%Z) ->
  exists w', new_from_dict w (dict_from_hit w0 l) = (w', w_next w, true) /\ wf N w' /\
    w_hits w (w_next w) = None /\
    (exists h', w_hits w' (w_next w) = Some h' /\ (forall d, h_dbl h' d = h_dbl h d) /\ (forall i, h_int h' i = h_int h i)) /\
    (forall k, k <> w_next w -> w_hits w' k = w_hits w k) /\
    cur_ctx w' = set_weight (cur_ctx w) zero_id (global_weight (cur_ctx w0) h).
Proof.
  intros Hw Hh Hi. pose proof (wf_new_from_dict N w (dict_from_hit w0 l) Hw) as Hw'.
  unfold new_from_dict, hit_alloc in *. rewrite (dict_value _ _ _ _ Hh) in *.
  set (w1 := mkWorld (fupd (w_hits w) (w_next w) hit_new) (S (w_next w)) (w_store w) (w_cur w)) in *.
  set (d := flat_map _ set_names) in *.
  assert (Hl : w_hits w1 (w_next w) = Some hit_new) by (unfold w1; simpl; apply fupd_same).
  pose proof (set_all_core N d w1 (w_next w) hit_new Hl) as Hs.
  change (cur_ctx w1) with (cur_ctx w) in Hs.
  pose proof (copy_core2 (cur_ctx w0) (cur_ctx w) h Hi) as Hc. fold d in Hc.
  destruct (core_set_all N (cur_ctx w) hit_new d) as [[h' c'] b].
  destruct (set_all w1 (w_next w) d) as [w2 b2]. cbn [fst] in Hw'.
  destruct Hs as (Q1 & Q2 & Q3 & Q4). destruct Hc as (R1 & R2 & R3 & R4).
  exists w2. split; [congruence|]. split; auto.
  split; [apply (wf_fresh _ _ Hw); lia|]. split; [exists h'; auto|]. split; [|congruence].
  intros k Hk. rewrite Q4 by auto. unfold w1; simpl. apply fupd_other. auto.
Qed.

(** What a sequence of copies does: [w0] is the state the hits are taken from. *)
Definition numbered (w : World) (l : nat) : option N :=
  match w_hits w l with
  | Some h => if hid_dec (weight_id h) zero_id then None else Some (global_weight (cur_ctx w) h)
  | None => None
  end.
Fixpoint zero_after (w : World) (g : N) (ls : list nat) : N :=
  match ls with [] => g | l :: r => zero_after w (match numbered w l with Some x => x | None => g end) r end.

Record copied (w w' : World) (ls ls' : list nat) (g' : N) : Prop := {
  cp_wf : wf N w';
  cp_old : forall k, w_hits w k <> None -> w_hits w' k = w_hits w k;
  cp_new : forall k, In k ls' -> w_hits w k = None;
  cp_dup : NoDup ls';
  cp_same : Forall2 (fun l l' => exists h h', w_hits w l = Some h /\ w_hits w' l' = Some h' /\
                       (forall d, h_dbl h' d = h_dbl h d) /\ (forall i, h_int h' i = h_int h i)) ls ls';
  cp_ctx : forall id, id <> zero_id -> get_weight (cur_ctx w') id = get_weight (cur_ctx w) id;
  cp_zero : get_weight (cur_ctx w') zero_id = g'
}.

Lemma copied_nil w : wf N w -> copied w w [] [] (get_weight (cur_ctx w) zero_id).
Proof. intros W. constructor; auto; try constructor. intros k []. Qed.

Lemma numbered_ext (w w1 : World) ls : wf N w -> (forall k, w_hits w k <> None -> w_hits w1 k = w_hits w k) ->
  (forall id, id <> zero_id -> get_weight (cur_ctx w1) id = get_weight (cur_ctx w) id) ->
  (forall l, In l ls -> is_hit w l) -> forall g, zero_after w1 g ls = zero_after w g ls.
Proof.
  intros W A B. induction ls as [|l r IH]; intros H g; [reflexivity|]. cbn [zero_after].
  assert (E : numbered w1 l = numbered w l).
  { unfold numbered. rewrite A by (apply H; left; auto). destruct (w_hits w l) as [h|]; auto.
    destruct (hid_dec (weight_id h) zero_id); auto. unfold global_weight. rewrite B by auto. reflexivity. }
  rewrite E. apply IH. intros; apply H; right; auto.
Qed.

Lemma copied_step (w w1 w2 : World) l l1 r r1 h h1 :
  w_hits w l = Some h -> wf N w -> wf N w1 -> w_hits w l1 = None -> w_hits w1 l1 = Some h1 ->
  (forall d, h_dbl h1 d = h_dbl h d) -> (forall i, h_int h1 i = h_int h i) ->
  (forall k, k <> l1 -> w_hits w1 k = w_hits w k) ->
  (forall id, id <> zero_id -> get_weight (cur_ctx w1) id = get_weight (cur_ctx w) id) ->
  (forall k, In k r -> is_hit w k) ->
  forall g', copied w1 w2 r r1 g' -> copied w w2 (l :: r) (l1 :: r1) g'.
Proof.
  intros Eh W W1 E0 E1 D I O B H g' [c1 c2 c3 c4 c5 c6 c7].
  assert (Old : forall k, w_hits w k <> None -> w_hits w1 k = w_hits w k) by (intros k K; apply O; intros ->; congruence).
  constructor; auto.
  - intros k K. rewrite c2, Old; auto. rewrite Old; auto.
  - intros k [<- | K]; auto. specialize (c3 k K). destruct (Nat.eq_dec k l1) as [-> | Nk]; [congruence|]. rewrite <- O; auto.
  - constructor; auto. intros K. specialize (c3 l1 K). congruence.
  - constructor.
    + exists h, h1. repeat split; auto. rewrite c2 by congruence. exact E1.
    + clear - c5 H Old. induction c5 as [|x y xs ys (hx & hy & A & B & C) F IH]; constructor.
      * exists hx, hy. split; auto. rewrite <- Old; auto. apply H. left. auto.
      * apply IH. intros; apply H; right; auto.
  - intros id K. rewrite c6, B; auto.
Qed.

Lemma zero_write (c : Context N) g id : ok N c ->
  get_weight (set_weight c zero_id g) id = if hid_dec id zero_id then g else get_weight c id.
Proof. intros K. rewrite get_weight_set by auto. reflexivity. Qed.

Lemma copy_loop_copied : forall ls (w : World) b, wf N w -> (forall l, In l ls -> is_hit w l) -> in_step b ->
  exists w' b' ls', copy_loop w b ls = Some (w', b') /\ b_hits b' = b_hits b ++ ls' /\ in_step b' /\
    copied w w' ls ls' (zero_after w (get_weight (cur_ctx w) zero_id) ls).
Proof.
  induction ls as [|l r IH]; intros w b W H B.
  - exists w, b, []. rewrite app_nil_r. split; auto. split; auto. split; auto. apply copied_nil; auto.
  - cbn [copy_loop]. assert (Hl : is_hit w l) by (apply H; left; auto). unfold is_hit in Hl.
    destruct (w_hits w l) as [h|] eqn:Eh; [|congruence].
    pose proof (make_effect w w l h W Eh (fun i => wf_ints _ _ W l h i Eh)) as (w1 & E & W1 & E0 & (h1 & E1 & D & I) & O & C).
    unfold deepcopy. rewrite E.
    assert (K := wf_cur_ok N w W).
    assert (Bc : forall id, id <> zero_id -> get_weight (cur_ctx w1) id = get_weight (cur_ctx w) id).
    { intros id Nid. rewrite C, zero_write by auto. destruct (hid_dec id zero_id); [contradiction|auto]. }
    assert (Old : forall k, w_hits w k <> None -> w_hits w1 k = w_hits w k).
    { intros k Hk. apply O. intros ->. congruence. }
    destruct (IH w1 (append b (w_next w)) W1) as (w2 & b2 & r1 & L & Bh & Bs & Cp).
    { intros k Hk. unfold is_hit. rewrite Old; apply H; right; auto. }
    { apply append_step; auto. }
    exists w2, b2, (w_next w :: r1). split; [exact L|]. split; [rewrite Bh; unfold append; cbn [b_hits]; rewrite <- app_assoc; reflexivity|].
    split; auto.
    eapply (copied_step w w1 w2 l (w_next w) r r1 h h1); eauto; [intros; apply H; right; auto|].
    replace (zero_after w (get_weight (cur_ctx w) zero_id) (l :: r)) with (zero_after w1 (get_weight (cur_ctx w1) zero_id) r); [exact Cp|].
    rewrite (numbered_ext w w1) by (auto; intros; apply H; right; auto).
    cbn [zero_after]. f_equal. rewrite C, zero_write by auto. destruct (hid_dec zero_id zero_id) as [_|]; [|contradiction].
    unfold numbered. rewrite Eh. destruct (hid_dec (weight_id h) zero_id) as [Z0|]; auto. unfold global_weight. rewrite Z0. reflexivity.
Qed.

(** The first stage of a deep copy: the zero weight becomes that of the last hit. *)
Definition raw_weight (w : World) (l : nat) (g : N) : N :=
  match w_hits w l with Some h => global_weight (cur_ctx w) h | None => g end.
Lemma make_hits_copied (w0 : World) : wf N w0 -> forall ls (w : World), wf N w -> (forall l, In l ls -> is_hit w0 l) ->
  (forall k, w_hits w0 k <> None -> w_hits w k = w_hits w0 k) ->
  exists w' ls', make_hits w (map (dict_from_hit w0) ls) = Some (w', ls') /\
    copied w w' ls ls' (fold_left (fun g l => raw_weight w0 l g) ls (get_weight (cur_ctx w) zero_id)).
Proof.
  intros W0. induction ls as [|l r IH]; intros w W H S.
  - exists w, []. split; [reflexivity|]. apply copied_nil; auto.
  - cbn [map make_hits]. assert (Hl : is_hit w0 l) by (apply H; left; auto). unfold is_hit in Hl.
    destruct (w_hits w0 l) as [h|] eqn:Eh; [|congruence].
    pose proof (make_effect w0 w l h W Eh (fun i => wf_ints _ _ W0 l h i Eh)) as (w1 & E & W1 & E0 & (h1 & E1 & D & I) & O & C).
    rewrite E. assert (K := wf_cur_ok N w W).
    assert (Bc : forall id, id <> zero_id -> get_weight (cur_ctx w1) id = get_weight (cur_ctx w) id).
    { intros id Nid. rewrite C, zero_write by auto. destruct (hid_dec id zero_id); [contradiction|auto]. }
    assert (Old : forall k, w_hits w k <> None -> w_hits w1 k = w_hits w k).
    { intros k Hk. apply O. intros ->. congruence. }
    destruct (IH w1 W1) as (w2 & r1 & L & Cp).
    { intros k Hk. apply H; right; auto. }
    { intros k Hk. rewrite Old; rewrite S; auto. }
    rewrite L. exists w2, (w_next w :: r1). split; auto.
    eapply (copied_step w w1 w2 l (w_next w) r r1 h h1); eauto.
    { rewrite S; auto. congruence. }
    { intros k Hk. unfold is_hit. rewrite S; apply H; right; auto. }
    cbn [fold_left]. replace (raw_weight w0 l (get_weight (cur_ctx w) zero_id)) with (get_weight (cur_ctx w1) zero_id); [exact Cp|].
    rewrite C, zero_write by auto. destruct (hid_dec zero_id zero_id) as [_|]; [|contradiction].
    unfold raw_weight. rewrite Eh. reflexivity.
Qed.

(** Both stages together. *)
Lemma copied_trans (w w1 w2 : World) ls ls1 ls2 g1 g2 : copied w w1 ls ls1 g1 -> copied w1 w2 ls1 ls2 g2 -> wf N w ->
  copied w w2 ls ls2 g2.
Proof.
  intros [a1 a2 a3 a4 a5 a6 a7] [c1 c2 c3 c4 c5 c6 c7] W.
  constructor; auto.
  - intros k K. rewrite c2, a2; auto. rewrite a2; auto.
  - intros k K. specialize (c3 k K). destruct (w_hits w k) eqn:E; auto. rewrite a2 in c3 by congruence. congruence.
  - clear - a5 c5. revert ls2 c5. induction a5 as [|x y xs ys (h & h1 & A & B & C & D) F IH]; intros ls2 c5; inversion c5 as [|? z ? zs (k & k1 & A' & B' & C' & D') F']; subst; constructor.
    + exists h, k1. rewrite B in A'. injection A' as <-. repeat split; auto; intros; rewrite ?C', ?D'; auto.
    + apply IH; auto.
  - intros id K. rewrite c6, a6; auto.
Qed.
Lemma zero_after_copied (w w1 : World) ls ls1 g1 : copied w w1 ls ls1 g1 -> forall g, zero_after w1 g ls1 = zero_after w g ls.
Proof.
  intros [a1 a2 a3 a4 a5 a6 a7]. clear a3 a4 a7. induction a5 as [|x y xs ys (h & h1 & A & B & C & D) F IH]; intros g; [reflexivity|].
  cbn [zero_after]. assert (E : numbered w1 y = numbered w x).
  { unfold numbered. rewrite A, B. rewrite (weight_id_ext _ _ _ D). destruct (hid_dec (weight_id h) zero_id); auto.
    unfold global_weight. rewrite (weight_id_ext _ _ _ D), a6; auto. }
  rewrite E. apply IH.
Qed.
Lemma zero_raw (w : World) ls : (forall l, In l ls -> is_hit w l) -> forall g,
  (forall l, In l ls -> numbered w l = None) ->
  fold_left (fun g l => raw_weight w l g) ls g = match ls with [] => g | _ => get_weight (cur_ctx w) zero_id end.
Proof.
  intros H. assert (K : forall l, In l ls -> numbered w l = None -> forall g, raw_weight w l g = get_weight (cur_ctx w) zero_id).
  { intros l I E g. unfold numbered, raw_weight in *. specialize (H l I). unfold is_hit in H.
    destruct (w_hits w l) as [h|]; [|congruence]. destruct (hid_dec (weight_id h) zero_id) as [Z0|]; [|discriminate].
    unfold global_weight. rewrite Z0. reflexivity. }
  clear H. intros g A. destruct ls as [|l r]; [reflexivity|]. revert l g K A. induction r as [|l' r IH]; intros l g K A.
  - cbn. apply K; [left|apply A; left]; auto.
  - change (fold_left (fun g l => raw_weight w l g) (l :: l' :: r) g) with (fold_left (fun g l => raw_weight w l g) (l' :: r) (raw_weight w l g)).
    apply IH; intros; [apply K|apply A]; auto; right; auto.
Qed.
Lemma zero_after_none (w : World) ls : (forall l, In l ls -> numbered w l = None) -> forall g, zero_after w g ls = g.
Proof.
  induction ls as [|l r IH]; intros A g; [reflexivity|]. cbn [zero_after]. rewrite A by (left; auto). apply IH. intros; apply A; right; auto.
Qed.
Lemma zero_after_start (w : World) ls g g' : (exists l, In l ls /\ numbered w l <> None) -> zero_after w g ls = zero_after w g' ls.
Proof.
  revert g g'. induction ls as [|l r IH]; intros g g' (k & I & K); [destruct I|]. cbn [zero_after].
  destruct (numbered w l) as [x|] eqn:E; auto. apply IH. destruct I as [-> | I]; [congruence|]. eauto.
Qed.
Lemma deepcopy_copied (w : World) b : wf N w -> (forall l, In l (b_hits b) -> is_hit w l) ->
  exists w' b', bunch_deepcopy w b = Some (w', b') /\ in_step b' /\
    copied w w' (b_hits b) (b_hits b') (zero_after w (get_weight (cur_ctx w) zero_id) (b_hits b)).
Proof.
  intros W H. unfold bunch_deepcopy.
  destruct (make_hits_copied w W (b_hits b) w W H (fun k _ => eq_refl)) as (w1 & ls1 & E & C1). rewrite E.
  pose proof (cp_wf _ _ _ _ _ C1) as W1.
  assert (H1 : forall l, In l ls1 -> is_hit w1 l).
  { intros l I. pose proof (cp_same _ _ _ _ _ C1) as F. unfold is_hit. clear - F I. induction F as [|x y xs ys (h & h1 & A & B & _) F IH]; [destruct I|].
    destruct I as [<- | I]; auto. congruence. }
  destruct (copy_loop_copied ls1 w1 bunch_new W1 H1) as (w2 & b2 & ls2 & L & Bh & Bs & C2); [reflexivity|].
  unfold new_from_hits. rewrite L. exists w2, b2. split; auto. split; auto. cbn [b_hits bunch_new app] in Bh. rewrite Bh.
  replace (zero_after w (get_weight (cur_ctx w) zero_id) (b_hits b)) with (zero_after w1 (get_weight (cur_ctx w1) zero_id) ls1);
    [eapply copied_trans; eauto|].
  rewrite (zero_after_copied _ _ _ _ _ C1), (cp_zero _ _ _ _ _ C1).
  destruct (existsb (fun l => match numbered w l with Some _ => true | None => false end) (b_hits b)) eqn:X.
  - apply zero_after_start. apply existsb_exists in X. destruct X as (l & I & K). exists l. split; auto. destruct (numbered w l); congruence.
  - assert (A : forall l, In l (b_hits b) -> numbered w l = None).
    { intros l I. destruct (numbered w l) eqn:E'; auto. assert (true = false); [|discriminate]. rewrite <- X. symmetry.
      apply existsb_exists. exists l. rewrite E'. auto. }
    rewrite !zero_after_none by auto. rewrite zero_raw by auto. destruct (b_hits b); reflexivity.
Qed.
Lemma new_from_hits_copied (w : World) ls : wf N w -> (forall l, In l ls -> is_hit w l) ->
  exists w' b', new_from_hits w ls = Some (w', b') /\ in_step b' /\
    copied w w' ls (b_hits b') (zero_after w (get_weight (cur_ctx w) zero_id) ls).
Proof.
  intros W H. destruct (copy_loop_copied ls w bunch_new W H) as (w' & b' & ls' & E & Bh & Bs & C); [reflexivity|].
  exists w', b'. cbn [b_hits bunch_new app] in Bh. rewrite Bh. auto.
Qed.

(** In terms of variables. *)
Lemma zero_track (w : World) l h : w_hits w l = Some h -> (track_is w l 0 0 0 <-> weight_id h = zero_id).
Proof.
  intros E. unfold track_is. rewrite (track_id _ _ _ _ E). unfold weight_id. split; intros X; inversion X; congruence.
Qed.
Lemma numbered_track (w : World) l : is_hit w l -> (numbered w l = None <-> track_is w l 0 0 0).
Proof.
  unfold is_hit, numbered. intros H. destruct (w_hits w l) as [h|] eqn:E; [|congruence]. rewrite (zero_track _ _ _ E).
  destruct (hid_dec (weight_id h) zero_id); split; congruence.
Qed.
Lemma numbered_weight (w : World) l x : numbered w l = Some x -> hit_get w l "global_weight" = Some (PFloat x).
Proof.
  unfold numbered. destruct (w_hits w l) as [h|] eqn:E; [|discriminate]. destruct (hid_dec _ _); [discriminate|].
  intros X. injection X as <-. apply (gw_get _ _ _ _ E).
Qed.
Lemma zero_after_app (w : World) a b g : zero_after w g (a ++ b) = zero_after w (zero_after w g a) b.
Proof. revert g. induction a as [|l a IH]; intros g; [reflexivity|]. cbn [app zero_after]. apply IH. Qed.

Section Effect.
Variables (w w' : World) (ls ls' : list nat).
Hypothesis Hls : forall l, In l ls -> is_hit w l.
Hypothesis W : wf N w.
Hypothesis C : copied w w' ls ls' (zero_after w (get_weight (cur_ctx w) zero_id) ls).

Lemma eff_copies : copies w w' ls ls'.
Proof.
  destruct C as [a1 a2 a3 a4 a5 a6 a7]. split; auto. split.
  - intros l I. unfold is_hit. rewrite (a3 l I). tauto.
  - clear - a5. induction a5 as [|x y xs ys (h & h1 & A & B & D & I) F IH]; constructor; auto. split; [unfold is_hit; congruence|].
    intros n S. unfold hit_get. rewrite A, B. rewrite (core_get_stored_ctx N (cur_ctx w') (cur_ctx w)) by auto.
    apply core_get_ext; auto.
Qed.
Lemma eff_old_stored g : is_hit w g -> same_hit w w' g g.
Proof.
  unfold is_hit. intros H n S. unfold hit_get. rewrite (cp_old _ _ _ _ _ C) by auto. destruct (w_hits w g); [|congruence].
  apply core_get_stored_ctx; auto.
Qed.
(** Weights: of a hit l (old or copy) with the variables of the old hit g. *)
Lemma eff_weight l l' h h' : w_hits w l = Some h -> w_hits w' l' = Some h' ->
  (forall d, h_dbl h' d = h_dbl h d) -> (forall i, h_int h' i = h_int h i) ->
  (~ track_is w l 0 0 0 \/ (forall k, In k ls -> track_is w k 0 0 0) -> forall n, hit_get w' l' n = hit_get w l n) /\
  (forall k, track_is w l 0 0 0 -> last_numbered w ls k -> hit_get w' l' "global_weight" = hit_get w k "global_weight").
Proof.
  intros E E' D I. pose proof (zero_track _ _ _ E) as Z0. split.
  - intros X n. unfold hit_get. rewrite E, E'. apply core_get_ext; auto.
    destruct (hid_dec (weight_id h) zero_id) as [Y|Y].
    + rewrite Y, (cp_zero _ _ _ _ _ C). apply zero_after_none. intros k K. apply numbered_track; auto. destruct X as [X|X]; auto. tauto.
    + apply (cp_ctx _ _ _ _ _ C). auto.
  - intros k T L. apply Z0 in T. rewrite (gw_get _ _ _ _ E'), (weight_id_ext _ _ _ I), T, (cp_zero _ _ _ _ _ C).
    inversion L as [a k' rest Nk R]; subst. rewrite zero_after_app. cbn [zero_after].
    assert (Hk : is_hit w k) by (apply Hls, in_app_iff; right; left; auto).
    destruct (numbered w k) as [x|] eqn:Ex; [|exfalso; apply Nk, numbered_track; auto].
    rewrite (numbered_weight _ _ _ Ex). rewrite zero_after_none; auto. intros m M. apply numbered_track; auto.
    apply Hls, in_app_iff. right. right. auto.
Qed.
Lemma forall2_and {A B} (P Q : A -> B -> Prop) l m : Forall2 P l m -> (forall a b, In a l -> In b m -> P a b -> Q a b) -> Forall2 Q l m.
Proof. induction 1; intros H1; constructor; auto with datatypes. Qed.
End Effect.
End C.

(** Comparing. *)
Open Scope R_scope.
Lemma hits_equal_meaning tol (w : RWorld) : 0 <= tol < 1 -> forall a b, List.length a = List.length b ->
  (hits_equal tol w a b = true <-> Forall2 (hits_agree tol w) a b).
Proof.
  intros T. induction a as [|x a IH]; intros [|y b] L; try discriminate; cbn [hits_equal].
  - split; constructor.
  - unfold hits_agree at 1. destruct (w_hits w x) as [h|] eqn:E, (w_hits w y) as [k|] eqn:E';
      try (split; [discriminate | intros F; inversion F as [|? ? ? ? (p & q & P & Q & _)]; congruence]).
    unfold hit_ne. pose proof (hit_eq_meaning (cur_ctx w) tol h k T) as M. destruct (hit_eq (cur_ctx w) tol h k); cbn [negb].
    + rewrite IH by (injection L; auto). split; intros F.
      * constructor; auto. exists h, k. destruct M as [M _]. specialize (M eq_refl). tauto.
      * inversion F; auto.
    + split; [discriminate|]. intros F. inversion F as [|? ? ? ? (p & q & P & Q & D & I)]; subst.
      assert (X : false = true) by (apply M; replace h with p by congruence; replace k with q by congruence; auto). discriminate.
Qed.
Lemma means_equal_meaning tol a b : means_equal tol a b = true <-> means_agree tol a b.
Proof.
  unfold means_equal, means_agree. rewrite forallb_forall. split.
  - intros H k x I. specialize (H _ I). cbn [fst snd] in H. destruct (lookup b k) as [y|]; [|discriminate]. exists y. split; auto.
    destruct (Rlt_dec tol (Rabs (x - y))); [discriminate|]. lra.
  - intros H [k x] I. cbn [fst snd]. destruct (H k x I) as (y & -> & L). destruct (Rlt_dec tol (Rabs (x - y))); auto. lra.
Qed.
Lemma lookup_in d k x : NoDup (map fst d) -> In (k, x) d -> lookup d k = Some x.
Proof.
  induction d as [|[k' y] d IH]; intros ND I; [destruct I|]. cbn [lookup]. destruct (String.eqb_spec k k') as [-> | Nk].
  - destruct I as [I|I]; [injection I; congruence|]. inversion ND; subst. exfalso. apply H1. change k' with (fst (k', x)). apply in_map. auto.
  - destruct I as [I|I]; [injection I; congruence|]. apply IH; auto. inversion ND; auto.
Qed.
Lemma forall2_length {A B} (P : A -> B -> Prop) l m : Forall2 P l m -> List.length l = List.length m.
Proof. induction 1; cbn; congruence. Qed.
