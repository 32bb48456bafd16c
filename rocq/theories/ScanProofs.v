From Coq Require Import Reals ZArith List Bool Sorted Permutation Lra Lia.
From Verif Require Import PyLibModel CommonModel HitPyModel HitPyProofs TrackModel AlgoModel AlgoSpec PeakProofs SmoothProofs.
Import ListNotations.
Open Scope list_scope.
Open Scope R_scope.

(** ---- scan ---- *)
Inductive Ends (axes : list Axis) : list R -> list (list R) -> Prop :=
| E_nil step : out_of_steps axes step = true -> Ends axes step []
| E_cons step l : out_of_steps axes step = false -> Ends axes (advance axes step) l ->
    Ends axes step (step :: l).

Lemma ends_loop axes step l : Ends axes step l ->
  forall n, (length l < n)%nat -> scan_loop n axes step = (l, true).
Proof.
  induction 1 as [step H|step l H _ IH]; intros n L; (destruct n; [simpl in L; lia|]);
    cbn [scan_loop]; rewrite H; auto.
  simpl in L. rewrite IH by lia. auto.
Qed.
Lemma ends_prefix axes step l : Ends axes step l ->
  forall n, (n <= length l)%nat -> scan_loop n axes step = (firstn n l, false).
Proof.
  induction 1 as [step H|step l H _ IH]; intros n L; (destruct n; [reflexivity|]);
    [simpl in L; lia|].
  cbn [scan_loop]. rewrite H. simpl in L. rewrite IH by lia. auto.
Qed.

Lemma out_cons a ar x xr : out_of_steps (a :: ar) (x :: xr) =
  negb (rltb x (a_end a)) || out_of_steps ar xr.
Proof. reflexivity. Qed.

Definition pt (a : Axis) (k : nat) : R := a_start a + INR k * a_size a.
Lemma pt_0 a : pt a 0 = a_start a.
Proof. unfold pt. simpl. lra. Qed.
Lemma pt_S a k : pt a k + a_size a = pt a (S k).
Proof. unfold pt. rewrite S_INR. lra. Qed.
Lemma pt_le a j k : 0 < a_size a -> (j <= k)%nat -> pt a j <= pt a k.
Proof. intros H L. unfold pt. apply le_INR in L. nra. Qed.

(** The number of values of an axis. *)
Definition counts (a : Axis) (m : nat) : Prop :=
  0 < a_size a /\ (0 < m)%nat /\ pt a (m - 1) < a_end a.

Lemma row_single a m : counts a m -> a_end a <= pt a m ->
  forall d k, (k + d = m)%nat -> Ends [a] [pt a k] (map (fun j => [pt a j]) (seq k d)).
Proof.
  intros (S0 & M0 & H1) H2. induction d as [|d IH]; intros k E; simpl.
  - constructor. rewrite out_cons. assert (k = m) by lia. subst k.
    apply orb_true_iff. left. apply negb_true_iff, rltb_false. auto.
  - constructor.
    + rewrite out_cons. apply orb_false_iff. split; auto. apply negb_false_iff, rltb_true.
      pose proof (pt_le a k (m - 1) S0 ltac:(lia)). lra.
    + cbn [advance]. rewrite pt_S. apply IH. lia.
Qed.

Lemma row_inner a ar m xr rest : ar <> [] -> counts a m -> a_end a < pt a m ->
  out_of_steps ar xr = false ->
  Ends (a :: ar) (a_start a :: advance ar xr) rest ->
  forall d k, (k + d = m)%nat -> (0 < d)%nat ->
    Ends (a :: ar) (pt a k :: xr) (map (fun j => pt a j :: xr) (seq k d) ++ rest).
Proof.
  intros N (S0 & M0 & H1) H2 O R. induction d as [|d IH]; intros k E D; [lia|].
  assert (G : out_of_steps (a :: ar) (pt a k :: xr) = false).
  { rewrite out_cons. apply orb_false_iff. split; auto. apply negb_false_iff, rltb_true.
    pose proof (pt_le a k (m - 1) S0 ltac:(lia)). lra. }
  simpl. constructor; auto. cbn [advance]. rewrite pt_S.
  destruct ar as [|b ar]; [contradiction|].
  destruct d as [|d].
  - assert (E' : S k = m) by lia. rewrite E'. replace (rltb (a_end a) (pt a m)) with true
      by (symmetry; apply rltb_true; auto). simpl. auto.
  - replace (rltb (a_end a) (pt a (S k))) with false.
    + apply IH; lia.
    + symmetry. apply rltb_false. pose proof (pt_le a (S k) (m - 1) S0 ltac:(lia)). lra.
Qed.

(** An inner axis that meets its end: the scan stops there. *)
Lemma row_stops a ar m xr : ar <> [] -> counts a m -> a_end a = pt a m ->
  out_of_steps ar xr = false ->
  forall d k, (k + d = m)%nat ->
    Ends (a :: ar) (pt a k :: xr) (map (fun j => pt a j :: xr) (seq k d)).
Proof.
  intros N (S0 & M0 & H1) H2 O. induction d as [|d IH]; intros k E.
  - constructor. rewrite out_cons. assert (k = m) by lia. subst k.
    apply orb_true_iff. left. apply negb_true_iff, rltb_false. lra.
  - assert (G : out_of_steps (a :: ar) (pt a k :: xr) = false).
    { rewrite out_cons. apply orb_false_iff. split; auto. apply negb_false_iff, rltb_true.
      pose proof (pt_le a k (m - 1) S0 ltac:(lia)). lra. }
    simpl. constructor; auto. cbn [advance]. rewrite pt_S.
    destruct ar as [|b ar]; [contradiction|].
    replace (rltb (a_end a) (pt a (S k))) with false.
    + apply IH; lia.
    + symmetry. apply rltb_false. rewrite H2. apply pt_le; auto. lia.
Qed.

Lemma ends_inner a ar m : ar <> [] -> counts a m -> a_end a < pt a m ->
  forall step l, Ends ar step l ->
  Ends (a :: ar) (a_start a :: step) (flat_map (fun xr => map (fun x => x :: xr) (steps (a_start a) (a_size a) m)) l).
Proof.
  intros N C H. induction 1 as [step O|step l O _ IH]; simpl.
  - constructor. rewrite out_cons, O. apply orb_true_r.
  - unfold steps at 1. rewrite map_map. rewrite <- (pt_0 a) at 1.
    apply (row_inner a ar m step _ N C H O IH m 0); auto. destruct C as (_ & C & _). lia.
Qed.

Lemma product_snoc p : forall ps,
  product (ps ++ [p]) = flat_map (fun y => map (fun x => y ++ [x]) p) (product ps).
Proof.
  induction ps as [|q ps IH]; simpl.
  - rewrite app_nil_r. induction p as [|x p IHp]; simpl; auto.
  - rewrite IH. generalize (product ps) as P. intros P.
    induction q as [|x q IHq]; simpl; auto. rewrite IHq, flat_map_app. f_equal.
    clear. induction P as [|y P IH]; simpl; auto. rewrite map_app, IH. f_equal.
    rewrite map_map. apply map_ext. auto.
Qed.

Definition inner_ok (am : Axis * nat) : Prop :=
  counts (fst am) (snd am) /\ a_end (fst am) < pt (fst am) (snd am).
Definition ax_points (am : Axis * nat) : list R := steps (a_start (fst am)) (a_size (fst am)) (snd am).

Lemma ends_product (first : Axis * nat) : counts (fst first) (snd first) ->
  a_end (fst first) <= pt (fst first) (snd first) ->
  forall rest, Forall inner_ok rest ->
  exists l, Ends (rev (map fst (first :: rest))) (map a_start (rev (map fst (first :: rest)))) l /\
            map (@rev R) l = product (map ax_points (first :: rest)).
Proof.
  intros C H. apply (rev_ind (fun rest => Forall inner_ok rest -> exists l, _ /\ _)).
  - intros _. exists (map (fun j => [pt (fst first) j]) (seq 0 (snd first))). split.
    + simpl. rewrite <- pt_0. apply (row_single _ (snd first)); auto.
    + simpl. unfold ax_points, steps. rewrite !map_map.
      rewrite flat_map_concat_map, map_map. generalize (seq 0 (snd first)). intros s.
      induction s; simpl; auto. f_equal. exact IHs.
  - intros am rest IH F. apply Forall_app in F. destruct F as [F1 F2].
    destruct (IH F1) as (l & E & P). inversion F2 as [|? ? [C2 H2] _]; subst.
    eexists. split.
    + rewrite app_comm_cons, map_app, rev_app_distr. simpl rev. simpl app. simpl map.
      refine (ends_inner (fst am) _ (snd am) _ C2 H2 _ _ E). 
      simpl. destruct (rev (map fst rest)); discriminate.
    + rewrite app_comm_cons, map_app. change (map ax_points [am]) with [ax_points am]. rewrite product_snoc, <- P. clear.
      fold (ax_points am). induction l as [|y l IH]; simpl; auto. rewrite map_app, IH. f_equal.
      rewrite map_map. auto.
Qed.

Lemma scan_ends axes l n : Ends (rev axes) (map a_start (rev axes)) l -> (length l < n)%nat ->
  scan n axes = (map (@rev R) l, true).
Proof. intros E H. unfold scan. rewrite (ends_loop _ _ _ E) by auto. auto. Qed.

(** ---- noise ---- *)
Lemma total_app a b : total (a ++ b) = total a + total b.
Proof. induction a; simpl; [lra|]. rewrite IHa. lra. Qed.
Lemma total_perm a b : Permutation a b -> total a = total b.
Proof. induction 1; simpl; lra. Qed.
Lemma total_sq_dev l m : total (map (fun x => (x - m) * (x - m)) l) =
  total (map (fun x => x * x) l) - 2 * m * total l + INR (length l) * (m * m).
Proof.
  induction l as [|x l IH]; [simpl; lra|]. change (length (x :: l)) with (S (length l)). rewrite S_INR.
  cbn [map total]. rewrite IH. ring.
Qed.
Lemma total_sq_pos l m : 0 <= total (map (fun x => (x - m) * (x - m)) l).
Proof. induction l; simpl; [lra|]. pose proof (Rle_0_sqr (a - m)) as H. unfold Rsqr in H. lra. Qed.

Lemma sigma_noise_spec noise : noise <> [] ->
  sigma_noise noise = inr (sqrt (average (map (fun x => (x - average noise) * (x - average noise)) noise))).
Proof.
  intros N. unfold sigma_noise, mean_noise. destruct noise as [|x0 r] eqn:E; [contradiction|].
  rewrite <- E in *. rewrite !sum_list_total. fold (average noise). set (m := average noise).
  assert (L : 0 < INR (length noise)) by (apply lt_0_INR; rewrite E; simpl; lia).
  assert (V : total (map (fun x => x * x) noise) / INR (length noise) - m * m =
              average (map (fun x => (x - m) * (x - m)) noise)).
  { unfold average. rewrite map_length, total_sq_dev.
    assert (T : total noise = m * INR (length noise)) by (unfold m, average; field; lra).
    rewrite T. field. lra. }
  rewrite V. destruct (rltb 0 _) eqn:B; auto.
  apply rltb_false in B. f_equal.
  assert (P : 0 <= average (map (fun x => (x - m) * (x - m)) noise)).
  { unfold average. rewrite map_length. apply Rmult_le_pos; [apply total_sq_pos|].
    apply Rlt_le, Rinv_0_lt_compat. auto. }
  replace (average _) with 0 by lra. symmetry. apply sqrt_0.
Qed.

(** ---- phase advance ---- *)
Lemma dphi_loop_app points : forall old dphi, dphi_loop old points dphi = dphi ++ dphi_loop old points [].
Proof.
  induction points as [|p r IH]; intros old dphi; simpl; [rewrite app_nil_r; auto|].
  rewrite IH. symmetry. rewrite IH, app_assoc. auto.
Qed.
Lemma dphi_length points : forall old, length (dphi_loop old points []) = length points.
Proof.
  induction points as [|p r IH]; intros old; simpl; auto. rewrite dphi_loop_app. simpl. rewrite IH. auto.
Qed.

Definition advance_of (p q : R * R) : R :=
  let d := phase q - phase p in (if rltb d 0 then d + PI * 2 else d) / PI / 2.

Lemma phase_range p : - PI <= phase p < PI.
Proof. unfold phase. pose proof (atan2_range (snd p) (fst p)). lra. Qed.

Lemma advance_range p q : 0 <= advance_of p q < 1.
Proof.
  unfold advance_of. pose proof (phase_range p). pose proof (phase_range q). pose proof PI_RGT_0 as P.
  set (d := phase q - phase p) in *.
  assert (D : - (2 * PI) < d < 2 * PI) by (unfold d; lra).
  assert (G : 0 <= (if rltb d 0 then d + PI * 2 else d) < 2 * PI).
  { destruct (rltb d 0) eqn:E; [apply rltb_true in E|apply rltb_false in E]; lra. }
  set (e := if rltb d 0 then d + PI * 2 else d) in *.
  assert (I : e / PI / 2 = e * / (2 * PI)) by (field; lra). rewrite I.
  assert (0 < / (2 * PI)) by (apply Rinv_0_lt_compat; lra).
  split; [apply Rmult_le_pos; lra|]. apply (Rmult_lt_reg_r (2 * PI)); [lra|]. rewrite Rmult_assoc, Rinv_l by lra. lra.
Qed.

Lemma dphi_nth r : forall p i, (i < length r)%nat ->
  nth i (dphi_loop (phase p) r []) 0 = advance_of (nth i (p :: r) (0, 0)) (nth i r (0, 0)).
Proof.
  induction r as [|q r IH]; intros p i H; [simpl in H; lia|].
  cbn [dphi_loop]. rewrite dphi_loop_app. destruct i; [reflexivity|].
  simpl in H. cbn [app nth]. apply IH. lia.
Qed.

(** An angle is determined by its cosine and sine. *)
Lemma same_angle u v : cos u = cos v -> sin u = sin v -> Rabs (u - v) < 2 * PI -> u = v.
Proof.
  intros C S A. set (w := (u - v) / 2). assert (U : u = v + 2 * w) by (unfold w; lra).
  assert (K : cos (2 * w) = 1).
  { unfold w. replace (2 * ((u - v) / 2)) with (u - v) by lra. rewrite cos_minus, C, S.
    pose proof (sin2_cos2 v) as H. unfold Rsqr in H. lra. }
  rewrite cos_2a_sin in K. assert (Z : sin w = 0) by nra.
  assert (W : - PI < w < PI). { unfold w. apply Rabs_def2 in A. lra. }
  assert (w = 0); [|lra].
  destruct (Rtotal_order w 0) as [H|[H|H]]; auto.
  - pose proof (sin_gt_0 (- w) ltac:(lra) ltac:(lra)) as P. rewrite sin_neg in P. lra.
  - pose proof (sin_gt_0 w ltac:(lra) ltac:(lra)). lra.
Qed.

Lemma advance_rotation p q theta : p <> (0, 0) -> 0 <= theta < 2 * PI ->
  q = (cos theta * fst p + sin theta * snd p, - sin theta * fst p + cos theta * snd p) ->
  advance_of p q = theta / (2 * PI).
Proof.
  intros N T Q. destruct p as [x y]. cbn [fst snd] in Q.
  set (r := sqrt (x * x + y * y)).
  assert (R0 : 0 < x * x + y * y).
  { destruct (Req_dec x 0) as [->|]; [|nra]. destruct (Req_dec y 0) as [->|]; [contradiction|nra]. }
  assert (Rr : 0 < r) by (apply sqrt_lt_R0; auto).
  destruct (atan2_polar y x) as [Ex Ey]. fold r in Ex, Ey. set (a := atan2 y x) in *.
  pose proof (atan2_range y x) as Ra. fold a in Ra.
  destruct q as [x' y']. injection Q as Qx Qy.
  assert (Rr' : sqrt (x' * x' + y' * y') = r).
  { unfold r. f_equal. subst x' y'. pose proof (sin2_cos2 theta) as H. unfold Rsqr in H. 
    transitivity ((sin theta * sin theta + cos theta * cos theta) * (x * x + y * y)); [ring|rewrite H; ring]. }
  destruct (atan2_polar y' x') as [Ex' Ey']. rewrite Rr' in Ex', Ey'. set (b := atan2 y' x') in *.
  pose proof (atan2_range y' x') as Rb. fold b in Rb.
  assert (Cb : cos b = cos (a - theta)).
  { apply (Rmult_eq_reg_l r); [|lra]. rewrite <- Ex', Qx, cos_minus. rewrite Ex, Ey at 1. ring. }
  assert (Sb : sin b = sin (a - theta)).
  { apply (Rmult_eq_reg_l r); [|lra]. rewrite <- Ey', Qy, sin_minus. rewrite Ex, Ey at 1. ring. }
  unfold advance_of, phase. cbn [fst snd]. fold a b.
  set (d := - b - - a). pose proof PI_RGT_0 as P.
  assert (Cd : cos d = cos theta).
  { unfold d. replace (- b - - a) with (a - b) by ring. rewrite cos_minus, Cb, Sb, cos_minus, sin_minus.
    pose proof (sin2_cos2 a) as H. unfold Rsqr in H.
    transitivity ((sin a * sin a + cos a * cos a) * cos theta); [ring|rewrite H; ring]. }
  assert (Sd : sin d = sin theta).
  { unfold d. replace (- b - - a) with (a - b) by ring. rewrite sin_minus, Cb, Sb, cos_minus, sin_minus.
    pose proof (sin2_cos2 a) as H. unfold Rsqr in H.
    transitivity ((sin a * sin a + cos a * cos a) * sin theta); [ring|rewrite H; ring]. }
  assert (D : (if rltb d 0 then d + PI * 2 else d) = theta).
  { destruct (rltb d 0) eqn:E; [apply rltb_true in E|apply rltb_false in E]; apply same_angle; auto.
    - replace (PI * 2) with (2 * PI) by ring. rewrite <- Cd. rewrite cos_plus, cos_2PI, sin_2PI. ring.
    - replace (PI * 2) with (2 * PI) by ring. rewrite <- Sd. rewrite sin_plus, cos_2PI, sin_2PI. ring.
    - apply Rabs_def1; unfold d in *; lra.
    - apply Rabs_def1; unfold d in *; lra. }
  rewrite D. field. lra.
Qed.

(** A matrix with determinant one that preserves an ellipse is a rotation of the circle. *)
Lemma rotation_angle c s : c * c + s * s = 1 -> exists theta, 0 <= theta < 2 * PI /\ cos theta = c /\ sin theta = s.
Proof.
  intros H. destruct (atan2_polar s c) as [A B]. rewrite H, sqrt_1 in A, B. pose proof (atan2_range s c) as R.
  pose proof PI_RGT_0. set (a := atan2 s c) in *. destruct (Rlt_le_dec a 0).
  - exists (a + 2 * PI). split; [lra|]. rewrite cos_plus, sin_plus, cos_2PI, sin_2PI. lra.
  - exists a. split; [lra|]. lra.
Qed.

Lemma orthogonal_rotation (q : M2) : mul2 q (transpose2 q) = one2 -> det2 q = 1 ->
  exists c s, q = ((c, s), (- s, c)) /\ c * c + s * s = 1.
Proof.
  destruct q as [[a b] [c d]]. unfold mul2, transpose2, one2, det2, apply2. cbn [fst snd].
  intros E D. injection E as E1 E2 E3 E4. exists a, b.
  assert (c = - b /\ d = a); [|destruct H as [-> ->]; auto].
  split.
  - transitivity ((a * a + b * b) * c); [rewrite E1; ring|].
    transitivity (a * (a * c + b * d) - b * (a * d - b * c)); [ring|]. rewrite E2, D. ring.
  - transitivity ((a * a + b * b) * d); [rewrite E1; ring|].
    transitivity (b * (a * c + b * d) + a * (a * d - b * c)); [ring|]. rewrite E2, D. ring.
Qed.
