From Coq Require Import Reals List Bool String Lra Lia.
From Verif Require Import Num HitcoreModel HitcoreSpec HitPyModel HitPySpec HitPyProofs
  MatrixModel MatrixSpec.
Import ListNotations.
Open Scope string_scope.
Open Scope R_scope.

Lemma coords_fname : coords = map fname coord_vars.
Proof. reflexivity. Qed.

Lemma store_effect ks : forall s v,
  NoDup ks -> (forall k, In k ks -> In k stored_floats) -> (List.length ks <= List.length v)%nat ->
  let (s', e) := store s ks v in
  e = None /\ snd s' = snd s /\ (forall i, h_int (fst s') i = h_int (fst s) i) /\
  (forall d, ~ In (fname d) ks -> h_dbl (fst s') d = h_dbl (fst s) d) /\
  (forall i d, nth_error ks i = Some (fname d) -> h_dbl (fst s') d = nth i v 0).
Proof.
  induction ks as [|k ks IH]; intros s v Hnd Hin Hlen.
  - destruct v; simpl; repeat split; auto; intros [|i] d E; discriminate.
  - destruct v as [|x v]; [simpl in Hlen; lia|].
    destruct (stored_fname k) as [dv ->]; [apply Hin; left; auto|].
    cbn [store]. rewrite set_fname.
    inversion Hnd; subst.
    specialize (IH (sd (fst s) dv x, snd s) v).
    match goal with |- let (_, _) := ?t in _ => destruct t as [s' e] end.
    destruct IH as (A1 & A2 & A3 & A4 & A5); auto.
    { intros; apply Hin; right; auto. } { simpl in Hlen; lia. }
    cbn [fst snd] in *. repeat split; auto.
    + intros d Hd. rewrite A4 by (intros Hd'; apply Hd; right; auto).
      apply sd_other. intros ->. apply Hd. left; auto.
    + intros [|i] d Ed; simpl in *.
      * injection Ed as Ed. apply fname_inj in Ed. subst d. rewrite A4 by auto. apply sd_same.
      * apply A5; auto.
Qed.

Lemma vec_sub_spec a : forall b, List.length b = List.length a ->
  List.length (vec_sub a b) = List.length a /\
  forall i, (i < List.length a)%nat -> nth i (vec_sub a b) 0 = nth i a 0 - nth i b 0.
Proof.
  induction a as [|x a IH]; intros [|y b] L; try discriminate; simpl.
  - split; auto. intros; lia.
  - destruct (IH b) as [A B]; auto. split; auto. intros [|i] Hi; auto. apply B. lia.
Qed.

Lemma vec_add_spec a : forall b, List.length b = List.length a ->
  List.length (vec_add a b) = List.length a /\
  forall i, (i < List.length a)%nat -> nth i (vec_add a b) 0 = nth i a 0 + nth i b 0.
Proof.
  induction a as [|x a IH]; intros [|y b] L; try discriminate; simpl.
  - split; auto. intros; lia.
  - destruct (IH b) as [A B]; auto. split; auto. intros [|i] Hi; auto. apply B. lia.
Qed.

Lemma coord_nth (h : RHit) i : (i < 6)%nat ->
  exists d, nth_error coords i = Some (fname d) /\ coordinate h i = h_dbl h d /\
            In d coord_vars.
Proof.
  intros Hi. exists (nth i coord_vars Vx). split; [|split].
  - rewrite coords_fname. do 6 (destruct i as [|i]; [reflexivity|]). lia.
  - reflexivity.
  - apply nth_In. exact Hi.
Qed.

Lemma track_matrix_spec (h : RHit) (c : RCtx) oin tm oout :
  square 6 tm -> List.length oin = 6%nat -> List.length oout = 6%nat ->
  exists out, track_matrix (h, c) oin tm oout = inr out /\
    transported tm oin oout h out /\ pz_set out /\
    same_except (Vpz :: coord_vars) h out.
Proof.
  intros [Tl Tr] Oi Oo. unfold track_matrix.
  assert (Hc : forall k, In k coords -> In k stored_floats).
  { intros k. simpl. intuition (subst; simpl; auto 30). }
  destruct (get_vector_floats (h, c) coords Hc) as (u & -> & Lu & Hu).
  assert (Lu' : List.length u = 6%nat) by exact Lu.
  destruct (vec_sub_spec u oin) as [L1 V1]; [congruence|]. rewrite Lu' in *.
  unfold mat_vec.
  replace (forallb (fun row : list R => Nat.eqb (Datatypes.length row) (Datatypes.length (vec_sub u oin))) tm)
    with true.
  2:{ symmetry. apply forallb_forall. intros row Hr. rewrite L1. apply Nat.eqb_eq, Tr. auto. }
  set (w := map (fun row => dot row (vec_sub u oin)) tm).
  assert (Lw : List.length w = 6%nat) by (unfold w; rewrite map_length; auto).
  destruct (vec_add_spec w oout) as [L2 V2]; [congruence|]. rewrite Lw in *.
  pose proof (store_effect coords (h, c) (vec_add w oout)) as S.
  destruct (store (h, c) coords (vec_add w oout)) as [s' e].
  destruct S as (-> & _ & S3 & S4 & S5); auto.
  { repeat constructor; simpl; intuition discriminate. }
  { rewrite L2. simpl. auto. }
  pose proof (shell_component (fst s') Vpz (or_intror (or_intror eq_refl))) as M.
  change (fname Vpz) with "pz" in M.
  destruct (mass_shell (fst s') "pz") as [h' r] eqn:Em.
  destruct M as (Mf & Mt & Mn).
  assert (Er : ms_err r = None).
  { destruct (Rlt_dec ms_tol (room (fst s') Vpz)) as [X|X].
    - destruct (Mt X) as (-> & _). auto.
    - destruct (Mn ltac:(lra)) as (-> & _). auto. }
  rewrite Er. exists h'. split; auto. destruct Mf as [Mf Mi]. split; [|split].
  - intros i Hi. destruct (coord_nth h' i Hi) as (d & Hd & -> & Hin).
    rewrite Mf. 2:{ simpl. intros [<- | []]. simpl in Hin. intuition discriminate. }
    rewrite (S5 i d Hd). rewrite V2 by lia. f_equal.
    assert (Hn : nth i w 0 = dot (nth i tm []) (vec_sub u oin)).
    { unfold w. rewrite (nth_indep _ 0 (dot [] (vec_sub u oin))) by (rewrite map_length; lia).
      exact (map_nth (fun row => dot row (vec_sub u oin)) tm [] i). }
    rewrite Hn. rewrite (dot_sum _ _ 6); auto.
    2:{ apply Tr. apply nth_In. lia. }
    apply sum_n_ext. intros j Hj. unfold ent. f_equal.
    rewrite V1 by lia. destruct (coord_nth h j Hj) as (d' & Hd' & -> & _).
    rewrite (Hu j d' Hd'). auto.
  - assert (Rm : pz_room h' = room (fst s') Vpz).
    { unfold pz_room, room, others. rewrite !Mf by (simpl; intros [E|[]]; discriminate). auto. }
    split; intros X; rewrite Rm in X.
    + destruct (Mt X) as (_ & Ho & Hz). split; auto. rewrite Hz. apply sqrt_lt_R0.
      change (1 / 1000000) with ms_tol in X. pose proof tol_pos. lra.
    + destruct (Mn X) as (_ & Hz). auto.
  - split.
    + intros d Hd. rewrite Mf by (simpl in *; tauto). apply S4.
      intros X. rewrite coords_fname in X. apply in_map_iff in X. destruct X as (d' & Ed & X).
      apply fname_inj in Ed. subst. apply Hd. simpl in *. tauto.
    + intros i. rewrite Mi, S3. auto.
Qed.

Lemma track_loop_spec (h : RHit) (c : RCtx) oin tms : forall offs,
  List.length offs = List.length tms -> (forall m, In m tms -> square 6 m) ->
  (forall o, In o offs -> List.length o = 6%nat) -> List.length oin = 6%nat ->
  exists outs, track_loop (h, c) oin tms offs = inr outs /\
    List.length outs = List.length tms /\
    forall k out tm o, nth_error outs k = Some out -> nth_error tms k = Some tm ->
      nth_error offs k = Some o ->
      transported tm oin o h out /\ pz_set out /\ same_except (Vpz :: coord_vars) h out.
Proof.
  induction tms as [|tm tms IH]; intros [|o offs] L A B C; try discriminate.
  - exists []. simpl. repeat split; auto; destruct k; discriminate.
  - destruct (track_matrix_spec h c oin tm o) as (out & E & T); auto.
    { apply A; simpl; auto. } { apply B; simpl; auto. }
    destruct (IH offs) as (outs & Eo & Lo & Ho); auto.
    { intros; apply A; simpl; auto. } { intros; apply B; simpl; auto. }
    exists (out :: outs). cbn [track_loop]. rewrite E, Eo. split; auto. split; [simpl; auto|].
    intros [|k] out' tm' o' E1 E2 E3; simpl in *.
    + inversion E1; inversion E2; inversion E3; subst. auto.
    + eapply Ho; eauto.
Qed.
