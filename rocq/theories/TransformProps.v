(** Property C70: transform_to. *)
From Coq Require Import Reals ZArith List Bool String Lia Lra.
From Verif Require Import Num WeightModel WeightProofs HitcoreModel HitcoreSpec HitcoreProofs
  PyLibModel PyLibProofs BunchModel BunchSpec BunchProofs HitPyModel HitPySpec HitPyProofs
  MomentModel BunchNumModel MomentSpec MomentProofs StatProofs CommonModel CommonSpec
  CommonProofs GridProofs CommonProps MomentProps EllipseModel EllipseSpec DetProofs MatProofs EllipseProofs
  TwissProofs TwissProps TransformModel TransformSpec TransformProofs.
Import ListNotations.
Open Scope string_scope.
Open Scope list_scope.
Open Scope R_scope.

Lemma assoc_floats (o : list (string * R)) v :
  (assoc (float_values o) v = None /\ ~ In v (map fst o)) \/ dict_has (float_values o) v (entry o v) /\ In v (map fst o).
Proof.
  induction o as [|[k x] o IH]; cbn [float_values map assoc fst snd entry].
  - left. auto.
  - destruct (String.eqb_spec k v) as [->|N].
    + right. split; [|simpl; auto]. exists (@PFloat RNum x). cbn [assoc]. rewrite String.eqb_refl.
      split; [reflexivity|]. split; [discriminate|reflexivity].
    + destruct IH as [[A B]|[(y & A & B) I]]; [left|right].
      * split; auto. simpl. intuition.
      * split; [|simpl; auto]. exists y. cbn [assoc]. destruct (String.eqb_spec k v); [contradiction|].
        split; [exact A|exact B].
Qed.

(** What all the theorems assume about the bunch, the target and numpy. *)
Definition setting extra (eigh : Matrix -> option (list R * Matrix)) (inv : Matrix -> option Matrix)
    (w : RWorld) (b : Bunch) (ks : list string) (target : Matrix) (o : list (string * R)) : Prop :=
  let n := List.length ks in
  usable w b /\ NoDup (b_hits b) /\ NoDup ks /\ ks <> [] /\ (forall k, In k ks -> coordinate k) /\
  definite n (moments_about w (b_hits b) (centre w (b_hits b) o) ks) /\ definite n (ent target) /\
  exists c e1 e2, covariance_matrix extra no_fixed w b ks (float_values o) = inr c /\
    eigh c = Some e1 /\ eigen_system n c e1 /\ inverts inv n e1 /\
    eigh target = Some e2 /\ eigen_system n target e2.

Lemma transform_spec extra eigh inv (w : RWorld) b ks target t o :
  setting extra eigh inv w b ks target o ->
  let n := List.length ks in let p := centre w (b_hits b) o in
  exists w' m k, transform_matrix extra eigh inv no_fixed w b ks target o = inr m /\
    transform_to extra eigh inv no_fixed w b ks target t o "" = inr (w', None) /\
    bunch_abelian w b ks m t o "" = (w', None) /\
    usable w' b /\ square n m /\ det m * det m = 1 /\ 0 < k /\
    eqm n (mul n (ent m) (mul n (moments_about w (b_hits b) p ks) (tr (ent m)))) (scale k (ent target)) /\
    (forall i j, (i < n)%nat -> (j < n)%nat ->
       covariance w' (b_hits b) (stored_val w') (nth i ks "") (nth j ks "") =
       mul n (ent m) (mul n (covariances w (b_hits b) (stored_val w) ks) (tr (ent m))) i j).
Proof.
  intros (U & Hn & Hk & Hne & Hc & Pc & Pt & c & e1 & e2 & C & E1 & S1 & I1 & E2 & S2) n p.
  assert (Hpos : (0 < n)%nat) by (unfold n; destruct ks; [congruence|simpl; lia]).
  assert (Hs : forall v, In v ks -> In v stored_floats) by (intros v H; apply Hc; auto).
  assert (R0 : readings extra w (b_hits b) ks (stored_val w)) by (apply stored_readings; auto; apply U).
  pose proof U as (U1 & U2 & U3).
  destruct (covariance_spec extra w b ks (stored_val w) (float_values o) p U1 U2 U3 R0) as (c' & C1 & C2).
  { intros v _. unfold p, centre. destruct (assoc_floats o v) as [[A B]|[A B]]; destruct (in_dec string_dec v (map fst o)); try contradiction; auto. }
  assert (Qc : c' = c) by congruence. rewrite Qc in C2. clear Qc.
  destruct (table_ent n (fun i j => cov_entry w (b_hits b) (stored_val w) p (nth i ks "") (nth j ks ""))) as [_ T].
  assert (Ec : eqm n (ent c) (moments_about w (b_hits b) p ks)).
  { intros i j Hi Hj. rewrite C2. unfold n in T. rewrite T by auto. reflexivity. }
  assert (Pc' : definite n (ent c)).
  { intros v Hv. eapply Rlt_le_trans; [apply (Pc v Hv)|]. right. apply sum_n_ext. intros i Hi.
    apply sum_n_ext. intros j Hj. rewrite Ec by auto. reflexivity. }
  destruct (transform_matrix_spec extra eigh inv no_fixed w b ks target o c e1 e2 Hpos C Pc' Pt E1 S1 I1 E2 S2)
    as (m & k & M1 & M2 & M3 & M4 & M5).
  destruct (C64_covariance w b ks m t o U Hn Hk Hc M2) as (w' & W1 & W2 & _ & W4).
  exists w', m, k. split; auto. split; [unfold transform_to; rewrite M1; cbn [bindE]; rewrite W1; reflexivity|].
  split; auto. split; auto. split; auto. split; auto. split; auto. split.
  - rewrite <- Ec. exact M5.
  - intros i j Hi Hj. rewrite W4 by auto. unfold mul, tr. apply sum_n_ext. intros a Ha. rewrite <- sum_n_scale.
    apply sum_n_ext. intros d Hd. unfold covariances. ring.
Qed.

(** C70.  With the bunch mean as origin (the default), the covariance matrix becomes a positive
    multiple of the target; the determinant stays, which fixes the factor. *)
Theorem C70_target : forall extra eigh inv (w : RWorld) b ks target t o,
  setting extra eigh inv w b ks target o ->
  (forall v, In v ks -> In v (map fst o) -> entry o v = average w (b_hits b) (stored_val w v)) ->
  let n := List.length ks in
  exists w' k, transform_to extra eigh inv no_fixed w b ks target t o "" = inr (w', None) /\ usable w' b /\
    0 < k /\
    (forall i j, (i < n)%nat -> (j < n)%nat ->
       covariance w' (b_hits b) (stored_val w') (nth i ks "") (nth j ks "") = k * ent target i j) /\
    k ^ n * det_n n (ent target) = det_n n (covariances w (b_hits b) (stored_val w) ks).
Proof.
  intros extra eigh inv w b ks target t o H Ho n.
  destruct (transform_spec extra eigh inv w b ks target t o H) as (w' & m & k & _ & T & _ & U' & M & D & K & E & W).
  assert (S : eqm n (moments_about w (b_hits b) (centre w (b_hits b) o) ks) (covariances w (b_hits b) (stored_val w) ks)).
  { assert (Q : forall i, (i < n)%nat -> centre w (b_hits b) o (nth i ks "") = average w (b_hits b) (stored_val w (nth i ks ""))).
    { intros i Hi. unfold centre. destruct (in_dec _ _ _); auto. apply Ho; auto. apply nth_In; auto. }
    intros i j Hi Hj. unfold moments_about, covariances, covariance, deviation. rewrite !Q by auto. reflexivity. }
  fold n in E. rewrite S in E.
  exists w', k. split; auto. split; auto. split; auto. split.
  - intros i j Hi Hj. rewrite W by auto. fold n. rewrite E by auto. reflexivity.
  - rewrite <- det_scale. rewrite <- (det_eqm n _ _ E), !det_mul.
    change (det_n n (tr (ent m))) with (det_n n (fun i j => ent m j i)). rewrite (det_transpose n (ent m)).
    destruct M as [M _]. unfold det in D. rewrite M in D. fold n in D.
    transitivity ((det_n n (ent m) * det_n n (ent m)) * det_n n (covariances w (b_hits b) (stored_val w) ks)); [ring|].
    rewrite D. ring.
Qed.
Print Assumptions C70_target.

(** C70.  Emittance conserving, whatever the origin. *)
Theorem C70_emittance : forall extra eigh inv (w : RWorld) b axes vars target t o,
  setting extra eigh inv w b vars target o ->
  axes <> [] -> ~ In "ct" axes -> covariance_list axes false = Some vars ->
  exists w', transform_to extra eigh inv no_fixed w b vars target t o "" = inr (w', None) /\
    get_emittance extra false no_fixed w' b axes None = get_emittance extra false no_fixed w b axes None.
Proof.
  intros extra eigh inv w b axes vars target t o H Ha Nct Hv.
  destruct (transform_spec extra eigh inv w b vars target t o H) as (w' & m & k & _ & T & A & U' & M & D & _).
  destruct H as (U & Hn & Hk & _).
  destruct (C64_emittance extra w b axes vars m t o U Hn Ha Nct Hv Hk M) as (w2 & W1 & W2 & _).
  assert (w2 = w') by congruence. subst w2. exists w'. auto.
Qed.
Print Assumptions C70_emittance.

(** C70.  With all origins given: the second moments about origin plus translation become a
    positive multiple of the target. *)
Theorem C70_about_origin : forall extra eigh inv (w : RWorld) b ks target t o,
  setting extra eigh inv w b ks target o -> (forall v, In v ks -> In v (map fst o)) ->
  let n := List.length ks in
  exists w' k, transform_to extra eigh inv no_fixed w b ks target t o "" = inr (w', None) /\ 0 < k /\
    forall i j, (i < n)%nat -> (j < n)%nat ->
      moments_about w' (b_hits b) (fun v => entry o v + entry t v) ks i j = k * ent target i j.
Proof.
  intros extra eigh inv w b ks target t o H Ho n.
  destruct (transform_spec extra eigh inv w b ks target t o H) as (w' & m & k & _ & T & A & U' & M & D & K & E & W).
  exists w', k. split; auto. split; auto. intros i j Hi Hj. change (k * ent target i j) with (scale k (ent target) i j). rewrite <- (E i j Hi Hj).
  destruct H as (U & Hn & Hk & Hne & Hc & _).
  destruct (bunch_abelian_spec w b ks m t o Hn (proj1 (proj2 (proj2 U))) Hk Hc M) as (w2 & X1 & _ & _ & X4 & _ & _ & X7).
  assert (w2 = w') by congruence. subst w2. fold n in X7.
  assert (V : forall a l, (a < n)%nat -> In l (b_hits b) ->
    stored_val w' (nth a ks "") l - (entry o (nth a ks "") + entry t (nth a ks "")) =
    sum_n n (fun d => ent m a d * (stored_val w (nth d ks "") l - centre w (b_hits b) o (nth d ks "")))).
  { intros a l Hl Il. rewrite (X7 a (nth a ks "") l (nth_error_nth' ks "" Hl) Il).
    rewrite (sum_n_ext n _ (fun d => ent m a d * (stored_val w (nth d ks "") l - centre w (b_hits b) o (nth d ks "")))).
    - ring.
    - intros d Hd. unfold centre. destruct (in_dec _ _ _) as [|N]; auto. destruct N. apply Ho. apply nth_In; auto. }
  unfold moments_about at 1.
  rewrite (average_ext w w' (b_hits b) _ (fun l => sum_n n (fun a => sum_n n (fun d =>
    (ent m i a * ent m j d) * ((stored_val w (nth a ks "") l - centre w (b_hits b) o (nth a ks "")) *
     (stored_val w (nth d ks "") l - centre w (b_hits b) o (nth d ks ""))))))); auto.
  - rewrite average_sum_n. unfold mul at 1. apply sum_n_ext. intros a Hla. rewrite average_sum_n.
    unfold mul, tr. rewrite <- sum_n_scale. apply sum_n_ext. intros d Hd. rewrite average_scale.
    unfold moments_about. fold n. ring.
  - intros l Il. rewrite !V by auto. rewrite sum_n_prod. apply sum_n_ext. intros a Hla. apply sum_n_ext. intros d Hd. ring.
Qed.
Print Assumptions C70_about_origin.

(** C70, refuted.  Documented: the covariance matrix becomes similar to the target, about any
    origin.  In two or more dimensions with an origin that is not the mean it never does. *)
Theorem C70_origin_refuted : forall extra eigh inv (w : RWorld) b ks target t o,
  setting extra eigh inv w b ks target o -> (2 <= List.length ks)%nat ->
  (exists v, In v ks /\ In v (map fst o) /\ entry o v <> average w (b_hits b) (stored_val w v)) ->
  exists w', transform_to extra eigh inv no_fixed w b ks target t o "" = inr (w', None) /\
    ~ exists k, forall i j, (i < List.length ks)%nat -> (j < List.length ks)%nat ->
        covariance w' (b_hits b) (stored_val w') (nth i ks "") (nth j ks "") = k * ent target i j.
Proof.
  intros extra eigh inv w b ks target t o H H2 (v & V1 & V2 & V3).
  destruct (transform_spec extra eigh inv w b ks target t o H) as (w' & m & k & _ & T & A & U' & M & D & K & E & W).
  exists w'. split; auto. intros (k' & N).
  set (n := List.length ks) in *. set (p := centre w (b_hits b) o) in *.
  destruct H as (U & _ & _ & _ & _ & _ & Pt & _). pose proof (usable_nz w b U) as Tw.
  set (d := fun i => average w (b_hits b) (stored_val w (nth i ks "")) - p (nth i ks "")).
  (* second moments = covariances + d d^T *)
  assert (Sm : forall a c, moments_about w (b_hits b) p ks a c = covariances w (b_hits b) (stored_val w) ks a c + d a * d c).
  { intros a c. unfold moments_about, covariances, covariance.
    rewrite (average_ext w w (b_hits b) _ (fun l =>
      deviation w (b_hits b) (stored_val w) (nth a ks "") l * deviation w (b_hits b) (stored_val w) (nth c ks "") l +
      (d c * deviation w (b_hits b) (stored_val w) (nth a ks "") l +
       (d a * deviation w (b_hits b) (stored_val w) (nth c ks "") l + d a * d c)))); auto.
    - rewrite !average_plus, !average_scale, !average_deviation, average_const by auto. ring.
    - intros l _. unfold deviation, d. ring. }
  set (u := fun i => sum_n n (fun a => ent m i a * d a)).
  assert (Rr : forall i j, (i < n)%nat -> (j < n)%nat -> (k - k') * ent target i j = u i * u j).
  { intros i j Hi Hj. pose proof (E i j Hi Hj) as E1. pose proof (N i j Hi Hj) as N1. rewrite W in N1 by auto.
    unfold scale in E1.
    transitivity (k * ent target i j - k' * ent target i j); [ring|]. rewrite <- E1, <- N1.
    unfold u. rewrite sum_n_prod. unfold mul, tr.
    assert (G : forall f g : nat -> R, sum_n n f - sum_n n g = sum_n n (fun a => f a - g a)).
    { intros f g. rewrite (sum_n_ext n (fun a => f a - g a) (fun a => f a + (-1) * g a)) by (intros; ring).
      rewrite sum_n_plus, sum_n_scale. ring. }
    rewrite G. apply sum_n_ext. intros a Ha.
    rewrite <- Rmult_minus_distr_l, G, <- sum_n_scale. apply sum_n_ext. intros c Hc. rewrite Sm. ring. }
  (* u = 0: a vector at right angles to u *)
  assert (Z : k - k' = 0).
  { assert (Q : forall v : nat -> R, (exists i, (i < n)%nat /\ v i <> 0) -> sum_n n (fun i => v i * u i) = 0 -> k - k' = 0).
    { intros x Hx Hxu. pose proof (Pt x Hx) as P.
      assert (P2 : (k - k') * sum_n n (fun i => sum_n n (fun j => x i * ent target i j * x j)) =
        sum_n n (fun i => x i * u i) * sum_n n (fun i => x i * u i)).
      { rewrite sum_n_prod, <- sum_n_scale. apply sum_n_ext. intros i Hi. rewrite <- sum_n_scale. apply sum_n_ext.
        intros j Hj. transitivity (x i * x j * ((k - k') * ent target i j)); [ring|]. rewrite Rr by auto. ring. }
      rewrite Hxu, Rmult_0_l in P2. apply Rmult_integral in P2. destruct P2 as [P2|P2]; auto. fold n in P. rewrite P2 in P. lra. }
    assert (F : forall x : nat -> R, (forall i, (1 < i)%nat -> x i = 0) -> sum_n n x = x 0%nat + x 1%nat).
    { intros x Hx. assert (F : forall q, (2 <= q)%nat -> sum_n q x = x 0%nat + x 1%nat).
      { induction q as [|[|[|q]] IH]; intros Hq; try lia; [cbn [sum_n]; ring|].
        cbn [sum_n] in *. rewrite IH by lia. rewrite (Hx (S (S q))) by lia. ring. }
      apply F. auto. }
    destruct (Req_dec (u 0%nat) 0) as [Z|Z].
    - apply (Q (fun i => match i with O => 1 | _ => 0 end)).
      + exists 0%nat. split; [lia|lra].
      + rewrite F; [rewrite Z; ring|]. intros [|[|i]] Hi; try lia. ring.
    - apply (Q (fun i => match i with O => u 1%nat | 1%nat => - u 0%nat | _ => 0 end)).
      + exists 1%nat. split; [lia|lra].
      + rewrite F; [ring|]. intros [|[|i]] Hi; try lia. ring. }
  assert (Uz : forall i, (i < n)%nat -> u i = 0).
  { intros i Hi. pose proof (Rr i i Hi Hi) as X. rewrite Z, Rmult_0_l in X. symmetry in X. apply Rmult_integral in X. tauto. }
  destruct (In_nth ks v "" V1) as (q & Q1 & Q2).
  assert (Dz : d q = 0).
  { apply (rows_independent n (tr (ent m)) d); auto.
    - change (det_n n (tr (ent m))) with (det_n n (fun i j => ent m j i)). rewrite (det_transpose n (ent m)).
      destruct M as [M _]. unfold det in D. rewrite M in D. intros X. rewrite X in D. lra.
    - intros j Hj. rewrite <- (Uz j Hj). unfold u, tr. apply sum_n_ext. intros; ring. }
  apply V3. unfold d in Dz. rewrite Q2 in Dz. unfold p, centre in Dz. destruct (in_dec _ _ _); [lra|contradiction].
Qed.
Print Assumptions C70_origin_refuted.

(** Covariances 2 and 450, target [[5, 4], [4, 5]] with eigenvalues 1 and 9. *)
Definition ex_eigh (m : Matrix) : option (list R * Matrix) :=
  if Req_EM_T (ent m 0 1) 0 then Some ([2; 450], [[1; 0]; [0; 1]])
  else Some ([1; 9], [[/ sqrt 2; / sqrt 2]; [- / sqrt 2; / sqrt 2]]).
Definition ex_inv (_ : Matrix) : option Matrix := Some [[/ sqrt 2; 0]; [0; / sqrt 450]].

Lemma ex_setting o :
  (forall v, In v ["x"; "px"] -> centre (wrun ex_four) (b_hits ex_bunch4) o v =
     average (wrun ex_four) (b_hits ex_bunch4) (stored_val (wrun ex_four) v)) ->
  setting ex_extra ex_eigh ex_inv (wrun ex_four) ex_bunch4 ["x"; "px"] [[5; 4]; [4; 5]] o.
Proof.
  intros Ce.
  assert (V : forall v l, In v ["x"; "px"] -> ex_val v l = stored_val (wrun ex_four) v l).
  { intros v l [<-|[<-|[]]]; reflexivity. }
  assert (Co : forall i j, (i < 2)%nat -> (j < 2)%nat ->
    moments_about (wrun ex_four) (b_hits ex_bunch4) (centre (wrun ex_four) (b_hits ex_bunch4) o) ["x"; "px"] i j =
    ent [[2; 0]; [0; 450]] i j).
  { intros i j Hi Hj. unfold moments_about.
    assert (Ii : In (nth i ["x"; "px"] "") ["x"; "px"]) by (apply nth_In; auto).
    assert (Ij : In (nth j ["x"; "px"] "") ["x"; "px"]) by (apply nth_In; auto).
    rewrite !Ce by auto.
    pose proof (ex_four_cov _ _ Ii Ij) as F. unfold covariance, deviation in F.
    assert (AV : forall v, In v ["x"; "px"] -> average (wrun ex_four) (b_hits ex_bunch4) (ex_val v) =
      average (wrun ex_four) (b_hits ex_bunch4) (stored_val (wrun ex_four) v)).
    { intros v Hv. apply average_ext; auto. }
    rewrite !AV in F by auto.
    rewrite (average_ext (wrun ex_four) (wrun ex_four) (b_hits ex_bunch4) _
      (fun l => (ex_val (nth i ["x"; "px"] "") l - average (wrun ex_four) (b_hits ex_bunch4) (stored_val (wrun ex_four) (nth i ["x"; "px"] ""))) *
         (ex_val (nth j ["x"; "px"] "") l - average (wrun ex_four) (b_hits ex_bunch4) (stored_val (wrun ex_four) (nth j ["x"; "px"] ""))))); auto.
    - rewrite F. destruct i as [|[|i]]; [| |lia]; (destruct j as [|[|j]]; [| |lia]); reflexivity.
    - intros l _. rewrite !V by auto. reflexivity. }
  assert (D2 : forall A : nat -> nat -> R, 0 < A 0%nat 0%nat -> A 0%nat 1%nat = A 1%nat 0%nat ->
    0 < A 0%nat 0%nat * A 1%nat 1%nat - A 0%nat 1%nat * A 0%nat 1%nat -> definite 2 A).
  { intros A P1 P2 P3 v (i & Hi & Nz). cbn [sum_n]. rewrite <- P2.
    set (x := v 0%nat) in *. set (y := v 1%nat) in *.
    assert (Q : 0 < A 0%nat 0%nat * (x * A 0%nat 0%nat * x + 2 * (x * A 0%nat 1%nat * y) + y * A 1%nat 1%nat * y)).
    { replace (A 0%nat 0%nat * (x * A 0%nat 0%nat * x + 2 * (x * A 0%nat 1%nat * y) + y * A 1%nat 1%nat * y)) with
        ((A 0%nat 0%nat * x + A 0%nat 1%nat * y) * (A 0%nat 0%nat * x + A 0%nat 1%nat * y) +
         y * y * (A 0%nat 0%nat * A 1%nat 1%nat - A 0%nat 1%nat * A 0%nat 1%nat)) by ring.
      pose proof (Rle_0_sqr (A 0%nat 0%nat * x + A 0%nat 1%nat * y)) as S1. unfold Rsqr in S1.
      destruct (Req_dec y 0) as [Y|Y].
      - destruct i as [|[|i]]; [|fold y in Nz; contradiction|lia]. fold x in Nz. rewrite Y.
        assert (0 < (A 0%nat 0%nat * x) * (A 0%nat 0%nat * x)).
        { apply Rsqr_pos_lt. apply Rmult_integral_contrapositive. split; lra. }
        lra.
      - assert (0 < y * y) by (apply Rsqr_pos_lt; auto).
        assert (0 < y * y * (A 0%nat 0%nat * A 1%nat 1%nat - A 0%nat 1%nat * A 0%nat 1%nat)) by (apply Rmult_lt_0_compat; auto).
        lra. }
    assert (0 < x * A 0%nat 0%nat * x + 2 * (x * A 0%nat 1%nat * y) + y * A 1%nat 1%nat * y).
    { apply (Rmult_lt_reg_l (A 0%nat 0%nat)); auto. rewrite Rmult_0_r. exact Q. }
    lra. }
  assert (S2 : sqrt 2 <> 0) by (pose proof (sqrt_lt_R0 2); lra).
  assert (S22 : / sqrt 2 * / sqrt 2 = / 2).
  { rewrite <- Rinv_mult, sqrt_sqrt by lra. reflexivity. }
  split; [exact ex_four_usable|]. split; [repeat constructor; simpl; intuition discriminate|].
  split; [repeat constructor; simpl; intuition discriminate|]. split; [discriminate|].
  split; [intros k [<-|[<-|[]]]; split; try (vm_compute; tauto); discriminate|].
  split; [apply D2; rewrite !Co by (simpl; lia); unfold ent; simpl; lra|].
  split; [apply D2; unfold ent; simpl; lra|].
  assert (R0 : readings ex_extra (wrun ex_four) (b_hits ex_bunch4) ["x"; "px"] (stored_val (wrun ex_four))).
  { apply stored_readings; [exact ex_four_hits|]. intros v [<-|[<-|[]]]; vm_compute; tauto. }
  pose proof ex_four_usable as (U1 & U2 & U3).
  destruct (covariance_spec ex_extra (wrun ex_four) ex_bunch4 ["x"; "px"] (stored_val (wrun ex_four)) (float_values o)
    (centre (wrun ex_four) (b_hits ex_bunch4) o) U1 U2 U3 R0) as (c & C1 & C2).
  { intros v _. unfold centre. destruct (assoc_floats o v) as [[A B]|[A B]];
      destruct (in_dec string_dec v (map fst o)); try contradiction; auto. }
  assert (Cc : c = [[2; 0]; [0; 450]]).
  { rewrite C2. cbn [List.length seq map]. pose proof (Co 0%nat 0%nat) as A1. pose proof (Co 0%nat 1%nat) as A2.
    pose proof (Co 1%nat 0%nat) as A3. pose proof (Co 1%nat 1%nat) as A4.
    unfold moments_about in *. unfold cov_entry. rewrite A1, A2, A3, A4 by lia. reflexivity. }
  clear C2. subst c. exists [[2; 0]; [0; 450]], ([2; 450], [[1; 0]; [0; 1]]), ([1; 9], [[/ sqrt 2; / sqrt 2]; [- / sqrt 2; / sqrt 2]]).
  split; [exact C1|].
  split; [unfold ex_eigh, ent; simpl; destruct (Req_EM_T 0 0); [reflexivity|lra]|].
  split.
  { split; [reflexivity|]. split; [split; auto; intros r [<-|[<-|[]]]; reflexivity|].
    split; intros i j Hi Hj; (destruct i as [|[|i]]; [| |simpl in *; lia]); (destruct j as [|[|j]]; [| |simpl in *; lia]); unfold ent; simpl; lra. }
  split.
  { intros s Hs He. eexists. split; [reflexivity|]. split; [split; auto; intros r [<-|[<-|[]]]; reflexivity|].
    exists [[1; 0]; [0; 1]]. split.
    - intros i j Hi Hj. cbn [sum_n List.length]. rewrite !He by (simpl in *; lia).
      assert (sqrt 450 <> 0) by (pose proof (sqrt_lt_R0 450); lra).
      destruct i as [|[|i]]; [| |simpl in *; lia]; (destruct j as [|[|j]]; [| |simpl in *; lia]); unfold ent; simpl; field; auto.
    - intros i j Hi Hj. destruct i as [|[|i]]; [| |simpl in *; lia]; (destruct j as [|[|j]]; [| |simpl in *; lia]); reflexivity. }
  split; [unfold ex_eigh, ent; simpl; destruct (Req_EM_T 4 0); [lra|reflexivity]|].
  split; [reflexivity|]. split; [split; auto; intros r [<-|[<-|[]]]; reflexivity|].
  set (q := / sqrt 2) in *. clearbody q.
  split; intros i j Hi Hj; (destruct i as [|[|i]]; [| |simpl in *; lia]); (destruct j as [|[|j]]; [| |simpl in *; lia]); unfold ent; cbn [nth sum_n Nat.eqb List.length];
    try nra; lra.
Qed.

Example C70_example : let o := [("x", 0)] in
  setting ex_extra ex_eigh ex_inv (wrun ex_four) ex_bunch4 ["x"; "px"] [[5; 4]; [4; 5]] o /\
  (forall v, In v ["x"; "px"] -> In v (map fst o) -> entry o v = average (wrun ex_four) (b_hits ex_bunch4) (stored_val (wrun ex_four) v)).
Proof.
  intros o.
  assert (X : average (wrun ex_four) (b_hits ex_bunch4) (stored_val (wrun ex_four) "x") = 0).
  { rewrite ex_four_average. unfold stored_val.
    replace (hit_get (wrun ex_four) 0 "x") with (Some (@PFloat RNum 2)) by reflexivity.
    replace (hit_get (wrun ex_four) 1 "x") with (Some (@PFloat RNum (-2))) by reflexivity.
    replace (hit_get (wrun ex_four) 2 "x") with (Some (@PFloat RNum 0)) by reflexivity.
    replace (hit_get (wrun ex_four) 3 "x") with (Some (@PFloat RNum 0)) by reflexivity. cbn [real_of]. lra. }
  split.
  - apply ex_setting. intros v Hv. unfold centre. destruct (in_dec _ _ _) as [I|]; auto. destruct I as [<-|[]]. symmetry. exact X.
  - intros v Hv [<-|[]]. symmetry. exact X.
Qed.
