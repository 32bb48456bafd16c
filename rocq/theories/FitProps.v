(** C60: iterative fit of ellipses. *)
From Coq Require Import Reals List Bool Lia Lra Arith Setoid Morphisms.
From Verif Require Import Num HitPyModel HitPySpec HitPyProofs CommonSpec CommonProofs GridProofs EllipseModel
  EllipseSpec DetProofs MatProofs TransformModel TransformProofs FitModel FitSpec FitProofs.
Import ListNotations.
Open Scope R_scope.

Lemma ones_det : det [[1; 1]; [1; 1]] = 0.
Proof. cbn. ring. Qed.
Lemma first_pass : float_tolerance < Rabs (det [[1; 1]; [1; 1]] - 1).
Proof. rewrite ones_det, Rminus_0_l, Rabs_Ropp, Rabs_R1. unfold float_tolerance. lra. Qed.

Definition chosen_weights (points : list (list R)) (weights : option (list R)) : list R :=
  match weights with Some w => w | None => repeat 1 (List.length points) end.

Lemma fit_spec d inv points weights eps_cut k verbose : cloud d points (chosen_weights points weights) -> inverts_all d inv ->
  let ws := chosen_weights points weights in
  exists chain last S', fit_loop inv (S k) points ws eps_cut [1; 1] [[1; 1]; [1; 1]] 1 (repeat true (List.length points)) =
      (mean_list d points ws last, cov_list d points ws last, S') /\
    fit_ellipse inv points eps_cut weights (S k) verbose = inr (mean_list d points ws last, cov_list d points ws last) /\
    nth 0 chain [] = repeat true (List.length points) /\ (1 <= List.length chain <= S k)%nat /\ last = nth (List.length chain - 1) chain [] /\
    (forall i, (S i < List.length chain)%nat -> inside d points ws eps_cut (nth i chain []) (nth (S i) chain [])) /\
    (forall i, (S i < List.length chain)%nat ->
       float_tolerance < Rabs (dets d points ws 0 chain (S i) - dets d points ws 0 chain i)) /\
    (List.length chain = S k \/ det_n d (wcov points ws last) = 0 \/
     Rabs (dets d points ws 0 chain (List.length chain) - dets d points ws 0 chain (List.length chain - 1)) <= float_tolerance).
Proof.
  intros Cl Inv ws.
  destruct (loop_spec d points ws Cl inv Inv eps_cut k [1; 1] [[1; 1]; [1; 1]] 1 (repeat true (List.length points)) (repeat_length _ _) first_pass)
    as (chain & last & S' & E & L & R). rewrite ones_det in R.
  exists chain, last, S'. split; auto. split; auto. unfold fit_ellipse. fold (chosen_weights points weights). fold ws. rewrite E.
  destruct verbose; auto. rewrite (sum_weight_spec points ws S'); auto. apply Cl.
Qed.

(** The fit passes through a sequence of choices of points: all of them first; then, each time,
    those inside the ellipse of the choice before.  It returns the weighted mean and covariance of
    the last choice, made in at most the number of iterations allowed.  Until then the
    determinants differ by more than the tolerance; at the end they do not, or the iterations are
    used up, or the last covariance is singular.  No exception leaves the function. *)
Theorem C60_result : forall d inv points weights eps_cut iterations verbose,
  let ws := chosen_weights points weights in
  cloud d points ws -> inverts_all d inv -> (1 <= iterations)%nat ->
  exists (choices : list (list bool)) mean cov,
    fit_ellipse inv points eps_cut weights iterations verbose = inr (mean, cov) /\
    let n := List.length choices in
    let last := nth (n - 1) choices [] in
    let V := fun i => det_n d (wcov points ws (nth i choices [])) in
    let before := fun i => match i with O => 0 | S j => V j end in
    (1 <= n <= iterations)%nat /\
    nth 0 choices [] = repeat true (List.length points) /\
    (forall i, (S i < n)%nat -> inside d points ws eps_cut (nth i choices []) (nth (S i) choices [])) /\
    List.length mean = d /\ shape d d cov /\
    (forall j, (j < d)%nat -> nth j mean 0 = wmean points ws last j) /\
    (forall j k, (j < d)%nat -> (k < d)%nat -> ent cov j k = wcov points ws last j k) /\
    (forall i, (S i < n)%nat -> 1 / 1000000000 < Rabs (V i - before i)) /\
    (n = iterations \/ V (n - 1)%nat = 0 \/ Rabs (V (n - 1)%nat - before (n - 1)%nat) <= 1 / 1000000000).
Proof.
  intros d inv points weights eps_cut iterations verbose ws Cl Inv Hk. destruct iterations as [|k]; [lia|].
  destruct (fit_spec d inv points weights eps_cut k verbose Cl Inv) as (chain & last & S' & _ & E & H0 & HL & Hl & Hi & Hd & Hs).
  exists chain, (mean_list d points ws last), (cov_list d points ws last). split; auto. cbv zeta. split; auto. split; auto. split; auto.
  split; [unfold mean_list; rewrite map_length, seq_length; auto|]. split; [apply matrix_of_ent|].
  rewrite <- Hl. split; [intros; apply mean_list_nth; auto|]. split.
  { intros j l Hj Hl'. destruct (matrix_of_ent d (wcov points ws last)) as [_ X]. exact (X j l Hj Hl'). }
  split; [exact Hd|]. fold ws in Hs. destruct Hs as [Hs|[Hs|Hs]]; [left; auto|right; left; exact Hs|right; right].
  destruct (List.length chain) as [|n]; [lia|]. replace (S n - 1)%nat with n in * by lia. cbn [dets] in Hs.
  rewrite Hl. destruct n; exact Hs.
Qed.
Print Assumptions C60_result.

(** The matrix returned is symmetric and no vector has a negative square in it. *)
Theorem C60_semidefinite : forall d inv points weights eps_cut iterations verbose mean cov,
  let ws := chosen_weights points weights in
  cloud d points ws -> inverts_all d inv -> (1 <= iterations)%nat ->
  fit_ellipse inv points eps_cut weights iterations verbose = inr (mean, cov) ->
  (forall j k, (j < d)%nat -> (k < d)%nat -> ent cov j k = ent cov k j) /\
  forall v : nat -> R, 0 <= sum_n d (fun i => sum_n d (fun j => v i * ent cov i j * v j)).
Proof.
  intros d inv points weights eps_cut iterations verbose mean cov ws Cl Inv Hk E.
  destruct (C60_result d inv points weights eps_cut iterations verbose Cl Inv Hk) as (ch & m & c & E' & R). cbv zeta in R.
  rewrite E in E'. injection E' as -> ->. destruct R as (_ & _ & _ & _ & _ & _ & C & _). fold ws in C. split.
  - intros j k Hj Hk'. rewrite !C by auto. apply wcov_sym.
  - intros v. rewrite (sum_n_ext d _ (fun i => sum_n d (fun j => v i * wcov points ws (nth (List.length ch - 1) ch []) i j * v j))).
    + apply (wcov_quad d points ws Cl).
    + intros i Hi. apply sum_n_ext. intros j Hj. rewrite C; auto.
Qed.
Print Assumptions C60_semidefinite.

(** Nothing is raised if there is a weight for every point; else, with verbose output,
    IndexError. *)
Theorem C60_exceptions : forall inv points eps_cut ws iterations,
  (exists r, fit_ellipse inv points eps_cut (Some ws) iterations false = inr r) /\
  (forall verbose, (List.length points <= List.length ws)%nat ->
     exists r, fit_ellipse inv points eps_cut (Some ws) iterations verbose = inr r) /\
  ((List.length ws < List.length points)%nat -> fit_ellipse inv points eps_cut (Some ws) iterations true = inl FIndexError).
Proof.
  intros inv points eps_cut ws iterations.
  assert (L : forall k m c o S, List.length S = List.length points ->
     List.length (snd (fit_loop inv k points ws eps_cut m c o S)) = List.length points).
  { induction k as [|k IH]; intros m c o S HS; [exact HS|]. rewrite fit_loop_S. destruct (Rlt_dec _ _); [|exact HS].
    destruct (get_covariance _ _ _) as [[m' c']|]; [|exact HS]. destruct (inv c') as [mi|]; [|exact HS].
    destruct (update_cut points mi m' eps_cut) as [S'|] eqn:U; [|exact HS]. apply IH.
    unfold update_cut in U. destruct (forallb _ _); [|discriminate]. injection U as <-. apply map_length. }
  assert (W : forall S w, (List.length S <= List.length w)%nat -> exists s, sum_weight w S = Some s).
  { induction S as [|c S IH]; intros w Hw; [cbn; eauto|]. destruct w as [|x w]; [cbn in Hw; lia|]. cbn in Hw.
    destruct (IH w ltac:(lia)) as (s & E). cbn [sum_weight]. rewrite E. eauto. }
  unfold fit_ellipse. set (S0 := repeat true (List.length points)).
  specialize (L iterations [1; 1] [[1; 1]; [1; 1]] 1 S0 (repeat_length _ _)).
  destruct (fit_loop _ _ _ _ _ _ _ _ _) as [[m c] S'] eqn:F. cbn [snd] in L. split; [eauto|]. split.
  - intros verbose Hl. destruct (W S' ws ltac:(lia)) as (s & ->). destruct verbose; eauto.
  - intros Hl.
    assert (N : forall n w, (List.length w < n)%nat -> sum_weight w (repeat true n) = None).
    { induction n as [|n IH]; intros w Hw; [lia|]. destruct w as [|x w]; [reflexivity|]. cbn in Hw. cbn [repeat sum_weight].
      rewrite IH by lia. reflexivity. }
    assert (S' = S0).
    { destruct iterations as [|k]; [cbn in F; congruence|]. rewrite fit_loop_S in F. destruct (Rlt_dec _ _); [|congruence].
      assert (G : get_covariance points ws S0 = None) by (unfold get_covariance, S0; rewrite N by auto; reflexivity).
      rewrite G in F. congruence. }
    subst S'. unfold S0. rewrite N by auto. reflexivity.
Qed.
Print Assumptions C60_exceptions.

(** Full statement: the ellipse returned is that of points inside the cut.  False for small
    beams: the first test compares the determinant with 0, and the tolerance is absolute, so
    that no cut is applied to points whose covariance has a determinant of at most 1e-9. *)
Theorem C60_small_refuted : forall d inv points weights eps_cut iterations verbose,
  let ws := chosen_weights points weights in
  let everything := repeat true (List.length points) in
  cloud d points ws -> inverts_all d inv -> (1 <= iterations)%nat ->
  det_n d (wcov points ws everything) <= 1 / 1000000000 ->
  exists mean cov, fit_ellipse inv points eps_cut weights iterations verbose = inr (mean, cov) /\
    (forall j, (j < d)%nat -> nth j mean 0 = wmean points ws everything j) /\
    forall j k, (j < d)%nat -> (k < d)%nat -> ent cov j k = wcov points ws everything j k.
Proof.
  intros d inv points weights eps_cut iterations verbose ws everything Cl Inv Hk Sm.
  destruct (C60_result d inv points weights eps_cut iterations verbose Cl Inv Hk) as (ch & m & c & E & R). cbv zeta in R.
  destruct R as (Hn & H0 & _ & _ & _ & M & C & Go & _). fold ws in M, C, Go. fold everything in H0.
  assert (N : List.length ch = 1%nat).
  { destruct (Nat.eq_dec (List.length ch) 1) as [|Ne]; auto. exfalso. specialize (Go 0%nat ltac:(lia)). cbn [Nat.eqb] in Go.
    rewrite H0, Rminus_0_r, Rabs_right in Go by (apply Rle_ge, (wcov_det d points ws Cl)). lra. }
  rewrite N in M, C. cbn [Nat.sub] in M, C. rewrite H0 in M, C. exists m, c. auto.
Qed.
Print Assumptions C60_small_refuted.

(** If the cut leaves no point, zeros are returned as if they were a fit. *)
Theorem C60_empty_refuted : forall d inv points weights eps_cut iterations verbose,
  let ws := chosen_weights points weights in
  cloud d points ws -> inverts_all d inv -> (2 <= iterations)%nat ->
  1 / 1000000000 < det_n d (wcov points ws (repeat true (List.length points))) -> eps_cut <= 0 ->
  exists mean cov, fit_ellipse inv points eps_cut weights iterations verbose = inr (mean, cov) /\
    (forall j, (j < d)%nat -> nth j mean 0 = 0) /\
    forall j k, (j < d)%nat -> (k < d)%nat -> ent cov j k = 0.
Proof.
  intros d inv points weights eps_cut iterations verbose ws Cl Inv Hk Big He.
  destruct (C60_result d inv points weights eps_cut iterations verbose Cl Inv ltac:(lia)) as (ch & m & c & E & R). cbv zeta in R.
  destruct R as (Hn & H0 & Hin & _ & _ & M & C & Go & St). fold ws in M, C, Go, St, Hin.
  assert (N2 : (2 <= List.length ch)%nat).
  { destruct (Nat.le_gt_cases 2 (List.length ch)) as [|L]; auto. exfalso. assert (L1 : List.length ch = 1%nat) by lia.
    rewrite L1 in St. cbn [Nat.sub] in St. rewrite H0 in St. destruct St as [St|[St|St]]; [lia|lra|].
    rewrite Rminus_0_r, Rabs_right in St by (apply Rle_ge, (wcov_det d points ws Cl)). lra. }
  assert (None1 : forall i, (i < List.length points)%nat -> nth i (nth 1 ch []) false = false).
  { intros i Hi. destruct (Hin 0%nat ltac:(lia)) as (Vi & HV & _ & X). specialize (X i Hi). cbv zeta in X.
    destruct (nth i (nth 1 ch []) false) eqn:Ei; auto. exfalso. destruct X as [X _]. specialize (X eq_refl).
    set (x := fun a => nth a (nth i points []) 0 - wmean points ws (nth 0 ch []) a) in *.
    set (y := fun a => sum_n d (fun b => Vi a b * x b)).
    assert (Cy : forall a, (a < d)%nat -> sum_n d (fun b => wcov points ws (nth 0 ch []) a b * y b) = x a).
    { intros a Ha. unfold y.
      rewrite (sum_n_ext d _ (fun b => sum_n d (fun k => wcov points ws (nth 0 ch []) a b * Vi b k * x k))).
      2:{ intros b Hb. rewrite <- sum_n_scale. apply sum_n_ext. intros; ring. }
      rewrite sum_n_swap. rewrite (sum_n_one d _ a Ha).
      - rewrite (sum_n_ext d _ (fun b => x a * (wcov points ws (nth 0 ch []) a b * Vi b a))) by (intros; ring).
        rewrite sum_n_scale, HV, Nat.eqb_refl by auto. ring.
      - intros k Hk' Ne. rewrite (sum_n_ext d _ (fun b => x k * (wcov points ws (nth 0 ch []) a b * Vi b k))) by (intros; ring).
        rewrite sum_n_scale, HV by auto. destruct (Nat.eqb_spec a k); [congruence|ring]. }
    assert (Q : sum_n d (fun a => sum_n d (fun b => x a * Vi a b * x b)) = quad d (wcov points ws (nth 0 ch [])) y).
    { transitivity (sum_n d (fun a => y a * x a)).
      - apply sum_n_ext. intros a Ha. unfold y. rewrite Rmult_comm, <- sum_n_scale. apply sum_n_ext. intros; ring.
      - unfold quad. apply sum_n_ext. intros a Ha. rewrite <- (Cy a Ha), <- sum_n_scale. apply sum_n_ext. intros; ring. }
    pose proof (wcov_quad d points ws Cl (nth 0 ch []) y) as P. rewrite <- Q in P.
    pose proof (Rmult_le_pos _ _ P (sqrt_pos (det_n d (wcov points ws (nth 0 ch []))))) as P2.
    pose proof (Rle_lt_trans _ _ _ P2 X). lra. }
  assert (C0 : forall j k, wcov points ws (nth 1 ch []) j k = 0).
  { intros j k. unfold wcov. rewrite !(none_zero points ws) by auto. unfold Rdiv. ring. }
  assert (N : List.length ch = 2%nat).
  { destruct (Nat.eq_dec (List.length ch) 2) as [|Ne]; auto. exfalso. destruct (Hin 1%nat ltac:(lia)) as (Vi & HV & _).
    destruct Cl as (Hd & _). specialize (HV 0%nat 0%nat ltac:(lia) ltac:(lia)). cbn [Nat.eqb] in HV.
    rewrite sum_n_zero in HV; [lra|]. intros k Hk'. rewrite C0. ring. }
  exists m, c. split; auto. rewrite N in M, C. cbn [Nat.sub] in M, C. split.
  - intros j Hj. rewrite M by auto. unfold wmean. rewrite !(none_zero points ws) by auto. unfold Rdiv. ring.
  - intros j k Hj Hk'. rewrite C by auto. apply C0.
Qed.
Print Assumptions C60_empty_refuted.

(** ---- affine maps ---- *)
Section Affine.
  Variables (d : nat) (A : nat -> nat -> R) (b : nat -> R).
  Hypothesis Da : det_n d A * det_n d A = 1.
  Variables (points : list (list R)) (ws : list R).
  Hypothesis Cl : cloud d points ws.
  Let points' := map (affine d A b) points.

  Lemma affine_nth p i : (i < d)%nat -> nth i (affine d A b p) 0 = sum_n d (fun j => A i j * nth j p 0) + b i.
  Proof. intros Hi. unfold affine. rewrite (nth_map_lt _ _ _ _ 0%nat) by (rewrite seq_length; auto). rewrite seq_nth; auto. Qed.

  Lemma affine_cloud : cloud d points' ws.
  Proof.
    destruct Cl as (Hd & Ne & Ln & Lw & Pw). split; auto. split.
    { unfold points'. destruct points; [congruence|discriminate]. }
    split. { intros p Hp. apply in_map_iff in Hp. destruct Hp as (q & <- & _). unfold affine. rewrite map_length, seq_length. auto. }
    split; auto. unfold points'. rewrite map_length. auto.
  Qed.

  Lemma affine_wsum S f : wsum points' ws S f = wsum points ws S (fun p => f (affine d A b p)).
  Proof.
    unfold wsum, points'. rewrite map_length. apply sum_n_ext. intros i Hi. destruct (nth i S false); auto.
    rewrite (nth_map_lt _ _ _ _ []) by auto. reflexivity.
  Qed.

  Lemma affine_mean S i : (i < d)%nat -> (exists k, (k < List.length points)%nat /\ nth k S false = true) ->
    wmean points' ws S i = sum_n d (fun j => A i j * wmean points ws S j) + b i.
  Proof.
    intros Hi H. pose proof (total_pos d points ws Cl S H) as T. unfold wmean. rewrite !affine_wsum.
    rewrite (wsum_ext points ws S _ (fun p => sum_n d (fun j => A i j * nth j p 0) + b i * 1)) by (intros; rewrite affine_nth by auto; ring).
    rewrite wsum_plus, wsum_scale, wsum_sum.
    rewrite (sum_n_ext d (fun j => A i j * (wsum points ws S (fun p => nth j p 0) / wsum points ws S (fun _ => 1)))
               (fun j => / wsum points ws S (fun _ => 1) * (A i j * wsum points ws S (fun p => nth j p 0)))) by (intros; unfold Rdiv; ring).
    rewrite sum_n_scale. rewrite (sum_n_ext d (fun i0 => wsum points ws S (fun p => A i i0 * nth i0 p 0)) (fun j => A i j * wsum points ws S (fun p => nth j p 0)))
      by (intros; rewrite wsum_scale; auto). field. lra.
  Qed.

  Lemma affine_cov S : eqm d (wcov points' ws S) (mul d (mul d A (wcov points ws S)) (tr A)).
  Proof.
    intros i j Hi Hj. destruct (some_or_none points S) as [H|H].
    - unfold wcov at 1. rewrite !affine_wsum. rewrite !affine_mean by auto.
      rewrite (wsum_ext points ws S _ (fun p => sum_n d (fun c => sum_n d (fun a => A i a * A j c *
         ((nth a p 0 - wmean points ws S a) * (nth c p 0 - wmean points ws S c)))))).
      2:{ intros p Hp. rewrite !affine_nth by auto.
          transitivity (sum_n d (fun a => A i a * (nth a p 0 - wmean points ws S a)) * sum_n d (fun a => A j a * (nth a p 0 - wmean points ws S a))).
          - assert (G : forall k, sum_n d (fun a => A k a * (nth a p 0 - wmean points ws S a)) =
               sum_n d (fun a => A k a * nth a p 0) + -1 * sum_n d (fun a => A k a * wmean points ws S a)).
            { intros k. rewrite <- sum_n_scale, <- sum_n_plus. apply sum_n_ext. intros; ring. }
            rewrite !G. ring.
          - rewrite <- sum_n_scale. apply sum_n_ext. intros c Hc. rewrite Rmult_comm, <- sum_n_scale. apply sum_n_ext. intros; ring. }
      rewrite wsum_sum. unfold mul, tr. unfold Rdiv. rewrite Rmult_comm, <- sum_n_scale. apply sum_n_ext. intros c Hc.
      rewrite wsum_sum, <- sum_n_scale. rewrite (Rmult_comm _ (A j c)), <- sum_n_scale. apply sum_n_ext. intros a Ha. rewrite wsum_scale.
      unfold wcov, Rdiv. ring.
    - assert (Z : forall pts, List.length pts = List.length points -> forall a c, wcov pts ws S a c = 0).
      { intros pts L a c. unfold wcov. rewrite !(none_zero pts ws) by (rewrite L; auto). unfold Rdiv. ring. }
      rewrite Z by (unfold points'; apply map_length). unfold mul. symmetry. apply sum_n_zero. intros c Hc.
      rewrite sum_n_zero; [ring|]. intros a Ha. rewrite Z by auto. ring.
  Qed.

  Lemma affine_det S : det_n d (wcov points' ws S) = det_n d (wcov points ws S).
  Proof.
    rewrite (det_eqm d _ _ (affine_cov S)), !det_mul.
    change (det_n d (tr A)) with (det_n d (fun i j => A j i)). rewrite (det_transpose d A).
    transitivity (det_n d A * det_n d A * det_n d (wcov points ws S)); [ring|]. rewrite Da. ring.
  Qed.

  Lemma affine_inside eps_cut S T T' : inside d points ws eps_cut S T -> inside d points' ws eps_cut S T' -> T = T'.
  Proof.
    intros (Vi & H1 & L1 & X1) (Vi' & H2 & L2 & X2).
    assert (Lp : List.length points' = List.length points) by (unfold points'; apply map_length).
    destruct (some_or_none points S) as [HS|HS].
    2:{ exfalso. destruct Cl as (Hd & _). specialize (H1 0%nat 0%nat ltac:(lia) ltac:(lia)). cbn [Nat.eqb] in H1.
        rewrite sum_n_zero in H1; [lra|]. intros k Hk. unfold wcov. rewrite !(none_zero points ws) by auto. unfold Rdiv. ring. }
    assert (E1 : eqm d (mul d (wcov points ws S) Vi) one).
    { intros i j Hi Hj. unfold mul. rewrite H1 by auto. unfold one, unit_row. destruct (Nat.eqb_spec i j), (Nat.eqb_spec j i); congruence. }
    assert (E2 : eqm d (mul d (wcov points' ws S) Vi') one).
    { intros i j Hi Hj. unfold mul. rewrite H2 by auto. unfold one, unit_row. destruct (Nat.eqb_spec i j), (Nat.eqb_spec j i); congruence. }
    rewrite affine_cov in E2.
    (* A C A^T Vi' = 1 gives C (A^T Vi' A) = 1 *)
    assert (E3 : eqm d (mul d (wcov points ws S) (mul d (tr A) (mul d Vi' A))) one).
    { rewrite !mul_assoc in E2. apply left_right_inverse in E2. rewrite !mul_assoc in E2. exact E2. }
    assert (E4 : eqm d Vi (mul d (tr A) (mul d Vi' A))).
    { apply left_right_inverse in E3. apply (inverse_unique d (wcov points ws S)); auto.
      - apply left_right_inverse. auto.
      - apply left_right_inverse. auto. }
    apply nth_ext with (d := false) (d' := false); [congruence|]. intros i Hi.
    specialize (X1 i ltac:(congruence)). specialize (X2 i ltac:(rewrite Lp; congruence)). cbv zeta in X1, X2.
    rewrite affine_det in X2.
    assert (Q : sum_n d (fun a => sum_n d (fun b0 =>
              (nth a (nth i points' []) 0 - wmean points' ws S a) * Vi' a b0 * (nth b0 (nth i points' []) 0 - wmean points' ws S b0))) =
            sum_n d (fun a => sum_n d (fun b0 =>
              (nth a (nth i points []) 0 - wmean points ws S a) * Vi a b0 * (nth b0 (nth i points []) 0 - wmean points ws S b0)))).
    { set (x := fun a => nth a (nth i points []) 0 - wmean points ws S a).
      set (x' := fun a => nth a (nth i points' []) 0 - wmean points' ws S a).
      assert (Xx : forall a, (a < d)%nat -> x' a = sum_n d (fun c => A a c * x c)).
      { intros a Ha. unfold x', x, points'. rewrite (nth_map_lt _ _ _ _ []) by congruence. fold points'. rewrite affine_nth, affine_mean by auto.
        rewrite (sum_n_ext d (fun c => A a c * (nth c (nth i points []) 0 - wmean points ws S c))
                   (fun c => A a c * nth c (nth i points []) 0 + -1 * (A a c * wmean points ws S c))) by (intros; ring).
        rewrite sum_n_plus, sum_n_scale. ring. }
      change (sum_n d (fun a => sum_n d (fun c => x' a * Vi' a c * x' c)) = sum_n d (fun a => sum_n d (fun c => x a * Vi a c * x c))).
      transitivity (sum_n d (fun a => sum_n d (fun c => x a * mul d (tr A) (mul d Vi' A) a c * x c))).
      2:{ apply sum_n_ext. intros a Ha. apply sum_n_ext. intros c Hc. rewrite (E4 a c) by auto. reflexivity. }
      transitivity (sum_n d (fun a => x' a * sum_n d (fun c => mul d Vi' A a c * x c))).
      - apply sum_n_ext. intros a Ha. rewrite <- !sum_n_scale.
        rewrite (sum_n_ext d (fun c => x' a * Vi' a c * x' c) (fun c => sum_n d (fun k => x' a * Vi' a c * A c k * x k))).
        2:{ intros c Hc. rewrite (Xx c Hc), <- sum_n_scale. apply sum_n_ext. intros; ring. }
        rewrite sum_n_swap. apply sum_n_ext. intros k Hk. unfold mul. rewrite (Rmult_comm (sum_n d _) (x k)), <- !sum_n_scale.
        apply sum_n_ext. intros; ring.
      - rewrite (sum_n_ext d (fun a => x' a * _) (fun a => sum_n d (fun k => x k * (A a k * sum_n d (fun c => mul d Vi' A a c * x c))))).
        2:{ intros a Ha. rewrite (Xx a Ha), Rmult_comm, <- sum_n_scale. apply sum_n_ext. intros; ring. }
        rewrite sum_n_swap. apply sum_n_ext. intros k Hk. rewrite sum_n_scale.
        rewrite (sum_n_ext d (fun c => x k * mul d (tr A) (mul d Vi' A) k c * x c) (fun c => x k * (mul d (tr A) (mul d Vi' A) k c * x c))) by (intros; ring).
        rewrite sum_n_scale. f_equal. unfold mul at 2. unfold tr.
        rewrite (sum_n_ext d (fun i0 => A i0 k * _) (fun a => sum_n d (fun c => A a k * mul d Vi' A a c * x c))).
        2:{ intros a Ha. rewrite <- sum_n_scale. apply sum_n_ext. intros; ring. }
        rewrite sum_n_swap. apply sum_n_ext. intros c Hc. rewrite (Rmult_comm (sum_n d _) (x c)), <- sum_n_scale. apply sum_n_ext. intros; ring. }
    rewrite Q in X2. destruct (nth i T false), (nth i T' false); auto.
    - symmetry. apply X2, X1. auto.
    - apply X1, X2. auto.
  Qed.

  Variable inv : list (list R) -> option (list (list R)).
  Hypothesis Inv : inverts_all d inv.

  Lemma affine_loop eps_cut : forall fuel m c o m' c' S, List.length S = List.length points ->
    float_tolerance < Rabs (det c - o) -> det c' = det c ->
    exists T S', fit_loop inv (Datatypes.S fuel) points ws eps_cut m c o S = (mean_list d points ws T, cov_list d points ws T, S') /\
      fit_loop inv (Datatypes.S fuel) points' ws eps_cut m' c' o S = (mean_list d points' ws T, cov_list d points' ws T, S').
  Proof.
    assert (Lp : List.length points' = List.length points) by (unfold points'; apply map_length).
    pose proof affine_cloud as Cl'.
    induction fuel as [|fuel IH]; intros m c o m' c' S HS Go Dc; rewrite !fit_loop_S;
      rewrite !(get_covariance_spec d) by (auto; congruence); rewrite Dc;
      (destruct (Rlt_dec float_tolerance (Rabs (det c - o))); [|contradiction]);
      pose proof (Inv (cov_list d points ws S) ltac:(apply matrix_of_ent)) as I1;
      pose proof (Inv (cov_list d points' ws S) ltac:(apply matrix_of_ent)) as I2;
      (destruct (inv (cov_list d points ws S)) as [mi|]; destruct (inv (cov_list d points' ws S)) as [mi'|]).
    2,3,6,7: exfalso.
    2,4: destruct (inverse_det d points ws Cl S mi I1) as (_ & _ & P); rewrite <- affine_det, <- (det_cov_list d) in P;
      unfold det in P; replace (List.length (cov_list d points' ws S)) with d in P by (symmetry; apply matrix_of_ent); lra.
    2,3: destruct (inverse_det d points' ws Cl' S mi' I2) as (_ & _ & P); rewrite affine_det, <- (det_cov_list d) in P;
      unfold det in P; replace (List.length (cov_list d points ws S)) with d in P by (symmetry; apply matrix_of_ent); lra.
    - destruct (update_cut_spec d points ws Cl S eps_cut mi I1) as (T1 & -> & N1).
      destruct (update_cut_spec d points' ws Cl' S eps_cut mi' I2) as (T2 & -> & N2).
      rewrite (affine_inside eps_cut S T1 T2 N1 N2). cbn [fit_loop]. eauto.
    - eauto.
    - destruct (update_cut_spec d points ws Cl S eps_cut mi I1) as (T1 & -> & N1).
      destruct (update_cut_spec d points' ws Cl' S eps_cut mi' I2) as (T2 & -> & N2).
      rewrite <- (affine_inside eps_cut S T1 T2 N1 N2).
      assert (Dd : det (cov_list d points' ws S) = det (cov_list d points ws S)) by (rewrite !det_cov_list; apply affine_det).
      destruct (Rlt_dec float_tolerance (Rabs (det (cov_list d points ws S) - det c))) as [Go'|Stop].
      + apply IH; auto. destruct N1 as (? & _ & L & _). auto.
      + rewrite !fit_loop_S. rewrite Dd. destruct (Rlt_dec _ _); [contradiction|]. eauto.
    - eauto.
  Qed.
End Affine.

(** Maps x -> A x + b that keep the volume commute with the fit: the same points are chosen, the
    covariance becomes A V A^T and the mean A <x> + b (the mean only if it is that of a point or
    more, or b = 0). *)
Theorem C60_affine : forall d inv points weights eps_cut iterations verbose A b mean cov mean' cov',
  let ws := chosen_weights points weights in
  cloud d points ws -> inverts_all d inv -> (1 <= iterations)%nat ->
  det_n d A * det_n d A = 1 ->
  fit_ellipse inv points eps_cut weights iterations verbose = inr (mean, cov) ->
  fit_ellipse inv (map (affine d A b) points) eps_cut weights iterations verbose = inr (mean', cov') ->
  (forall i j, (i < d)%nat -> (j < d)%nat ->
     ent cov' i j = sum_n d (fun k => sum_n d (fun l => A i k * ent cov k l * A j l))) /\
  ((forall i, b i = 0) \/ (exists i j, (i < d)%nat /\ (j < d)%nat /\ ent cov i j <> 0) ->
   forall i, (i < d)%nat -> nth i mean' 0 = sum_n d (fun k => A i k * nth k mean 0) + b i).
Proof.
  intros d inv points weights eps_cut iterations verbose A b mean cov mean' cov' ws Cl Inv Hk Da E E'.
  destruct iterations as [|k]; [lia|].
  destruct (affine_loop d A b Da points ws Cl inv Inv eps_cut k [1; 1] [[1; 1]; [1; 1]] 1 [1; 1] [[1; 1]; [1; 1]]
              (repeat true (List.length points)) (repeat_length _ _) first_pass eq_refl) as (T & S' & L1 & L2).
  unfold fit_ellipse in E, E'. rewrite map_length in E'. fold (chosen_weights points weights) in E, E'. fold ws in E, E'.
  rewrite L1 in E. rewrite L2 in E'.
  assert (mean = mean_list d points ws T /\ cov = cov_list d points ws T).
  { destruct verbose; [destruct (sum_weight ws S'); [|discriminate]|]; injection E as <- <-; auto. }
  assert (mean' = mean_list d (map (affine d A b) points) ws T /\ cov' = cov_list d (map (affine d A b) points) ws T).
  { destruct verbose; [destruct (sum_weight ws S'); [|discriminate]|]; injection E' as <- <-; auto. }
  destruct H as [-> ->]. destruct H0 as [-> ->]. clear E E' L1 L2.
  assert (Ec : forall pts i j, (i < d)%nat -> (j < d)%nat -> ent (cov_list d pts ws T) i j = wcov pts ws T i j).
  { intros pts i j Hi Hj. destruct (matrix_of_ent d (wcov pts ws T)) as [_ X]. exact (X i j Hi Hj). }
  split.
  - intros i j Hi Hj. rewrite Ec by auto. rewrite (affine_cov d A b points ws Cl T i j Hi Hj). unfold mul, tr.
    rewrite sum_n_swap. apply sum_n_ext. intros l Hl. rewrite Rmult_comm, <- sum_n_scale. apply sum_n_ext. intros a Ha. rewrite Ec by auto. ring.
  - intros H i Hi. rewrite mean_list_nth by auto.
    rewrite (sum_n_ext d (fun k0 => A i k0 * nth k0 (mean_list d points ws T) 0) (fun k0 => A i k0 * wmean points ws T k0)) by (intros; rewrite mean_list_nth by auto; auto).
    destruct (some_or_none points T) as [N|N].
    + apply affine_mean; auto.
    + destruct H as [H|(p & q & Hp & Hq & H)].
      * rewrite H. unfold wmean at 1. rewrite !(none_zero (map (affine d A b) points) ws) by (rewrite map_length; auto).
        rewrite sum_n_zero; [unfold Rdiv; ring|]. intros j Hj. unfold wmean. rewrite !(none_zero points ws) by auto. unfold Rdiv. ring.
      * exfalso. apply H. rewrite Ec by auto. unfold wcov. rewrite !(none_zero points ws) by auto. unfold Rdiv. ring.
Qed.
Print Assumptions C60_affine.

(** ---- cases ---- *)
Definition inv1 (m : list (list R)) : option (list (list R)) :=
  if Req_EM_T (ent m 0 0) 0 then None else Some [[/ ent m 0 0]].
Definition inv2 (m : list (list R)) : option (list (list R)) :=
  let D := ent m 0 0 * ent m 1 1 - ent m 0 1 * ent m 1 0 in
  if Req_EM_T D 0 then None
  else Some [[ent m 1 1 / D; - ent m 0 1 / D]; [- ent m 1 0 / D; ent m 0 0 / D]].

Lemma inv1_ok : inverts_all 1 inv1.
Proof.
  intros m Sh. unfold inv1. destruct (Req_EM_T (ent m 0 0) 0) as [Z|N].
  - cbn. rewrite Z. ring.
  - split; [split; [reflexivity|intros r [<-|[]]; reflexivity]|]. exists [[1]]. split.
    + intros i j Hi Hj. assert (i = 0%nat) by lia. assert (j = 0%nat) by lia. subst. cbn [sum_n]. change (ent [[1]] 0 0) with 1.
      change (ent [[/ ent m 0 0]] 0 0) with (/ ent m 0 0). field. auto.
    + intros i j Hi Hj. assert (i = 0%nat) by lia. assert (j = 0%nat) by lia. subst. reflexivity.
Qed.

Lemma inv2_ok : inverts_all 2 inv2.
Proof.
  intros m Sh. unfold inv2. set (a := ent m 0 0). set (b := ent m 0 1). set (c := ent m 1 0). set (e := ent m 1 1). cbv zeta.
  destruct (Req_EM_T (a * e - b * c) 0) as [Z|N].
  - cbn. fold a b c e. lra.
  - split; [split; [reflexivity|intros r [<-|[<-|[]]]; reflexivity]|]. exists [[1; 0]; [0; 1]]. split.
    + intros i j Hi Hj. destruct i as [|[|i]]; [| |lia]; (destruct j as [|[|j]]; [| |lia]); cbn [sum_n]; fold a b c e;
        unfold ent; cbn [nth]; field; auto.
    + intros i j Hi Hj. destruct i as [|[|i]]; [| |lia]; (destruct j as [|[|j]]; [| |lia]); reflexivity.
Qed.

(** Full statement (docstring): points with x^T V^-1 x |V|^(1/n) at or above the cut are left
    out, n the dimension.  False unless n = 2: in one dimension the points -2 and 2 have the
    value 4 but are kept by a cut at 3. *)
Theorem C60_dimension_refuted : exists points mean cov,
  cloud 1 points [1; 1] /\
  fit_ellipse inv1 points 3 (Some [1; 1]) 10 true = inr (mean, cov) /\
  nth 0 mean 0 = 0 /\ ent cov 0 0 = 4 /\
  forall p, In p points ->
    let x := nth 0 p 0 - nth 0 mean 0 in 3 <= x * (1 / ent cov 0 0) * x * ent cov 0 0.
Proof.
  set (pts := [[-2]; [2]]). 
  assert (Cl : cloud 1 pts (chosen_weights pts (Some [1; 1]))).
  { split; [lia|]. split; [discriminate|]. split; [intros p [<-|[<-|[]]]; reflexivity|]. split; [reflexivity|].
    intros w [<-|[<-|[]]]; lra. }
  destruct (C60_result 1 inv1 pts (Some [1; 1]) 3 10 true Cl inv1_ok ltac:(lia)) as (ch & mean & cov & E & R). cbv zeta in R.
  cbn [chosen_weights] in R. destruct R as (Hn & H0 & Hin & _ & _ & M & C & _). cbn [List.length pts repeat] in H0.
  assert (WM : wmean pts [1; 1] [true; true] 0 = 0) by (unfold wmean, wsum; cbn; field).
  assert (WC : wcov pts [1; 1] [true; true] 0 0 = 4) by (unfold wcov; rewrite WM; unfold wsum; cbn; field).
  assert (All : forall i, (i < List.length ch)%nat -> nth i ch [] = [true; true]).
  { induction i as [|i IH]; intros Hi; [exact H0|]. specialize (Hin i Hi). rewrite IH in Hin by lia.
    destruct Hin as (Vi & HV & L & X). specialize (HV 0%nat 0%nat ltac:(lia) ltac:(lia)). cbn [sum_n Nat.eqb] in HV. rewrite WC in HV.
    assert (V0 : Vi 0%nat 0%nat = 1 / 4) by lra.
    assert (D4 : sqrt (det_n 1 (wcov pts [1; 1] [true; true])) = 2).
    { cbn [det_n sum_n]. rewrite WC. cbn [pow]. replace (0 + 1 * 4 * 1) with (2 * 2) by ring. apply sqrt_square. lra. }
    destruct (nth (S i) ch []) as [|x [|y [|z l]]]; try discriminate L.
    pose proof (X 0%nat ltac:(cbn; lia)) as X0. pose proof (X 1%nat ltac:(cbn; lia)) as X1. cbv zeta in X0, X1.
    rewrite D4 in X0, X1. cbn [sum_n] in X0, X1. rewrite V0, WM in X0, X1. cbn [nth pts] in X0, X1.
    f_equal; [apply X0|f_equal; apply X1]; lra. }
  exists pts, mean, cov. split; [exact Cl|]. split; auto. rewrite (All (List.length ch - 1)%nat ltac:(lia)) in M, C.
  rewrite M, C, WM, WC by lia. split; auto. split; auto. intros p [<-|[<-|[]]]; cbn; lra.
Qed.
Print Assumptions C60_dimension_refuted.

(** Two outliers are cut away. *)
Definition six : list (list R) := [[1; 0]; [-1; 0]; [0; 1]; [0; -1]; [5; 5]; [-5; -5]].
Example C60_example :
  cloud 2 six (chosen_weights six None) /\ inverts_all 2 inv2 /\
  fit_ellipse inv2 six 5 None 10 true = inr ([0; 0], [[1 / 2; 0]; [0; 1 / 2]]).
Proof.
  assert (Cl : cloud 2 six (chosen_weights six None)).
  { split; [lia|]. split; [discriminate|]. split; [|split; [reflexivity|]].
    - unfold six. intros p Hp. repeat (destruct Hp as [<-|Hp]; [reflexivity|]). destruct Hp.
    - cbn. intros w Hw. repeat (destruct Hw as [<-|Hw]; [lra|]). destruct Hw. }
  split; auto. split; [exact inv2_ok|].
  set (ws := chosen_weights six None) in *.
  set (A := [true; true; true; true; true; true]). set (B := [true; true; true; true; false; false]).
  assert (mA : mean_list 2 six ws A = [0; 0]).
  { unfold mean_list. cbn [map seq]. unfold wmean, wsum, six, ws, A. cbn. f_equal; [field|f_equal; field]. }
  assert (mB : mean_list 2 six ws B = [0; 0]).
  { unfold mean_list. cbn [map seq]. unfold wmean, wsum, six, ws, B. cbn. f_equal; [field|f_equal; field]. }
  assert (wA : forall j, (j < 2)%nat -> wmean six ws A j = 0).
  { intros j Hj. rewrite <- (mean_list_nth 2 six ws A j Hj), mA. destruct j as [|[|j]]; reflexivity || lia. }
  assert (wB : forall j, (j < 2)%nat -> wmean six ws B j = 0).
  { intros j Hj. rewrite <- (mean_list_nth 2 six ws B j Hj), mB. destruct j as [|[|j]]; reflexivity || lia. }
  assert (cA : cov_list 2 six ws A = [[26 / 3; 25 / 3]; [25 / 3; 26 / 3]]).
  { unfold cov_list, matrix_of. cbn [map seq]. unfold wcov. rewrite !wA by lia. unfold wsum, six, ws, A. cbn. repeat (f_equal; try field). }
  assert (cB : cov_list 2 six ws B = [[1 / 2; 0]; [0; 1 / 2]]).
  { unfold cov_list, matrix_of. cbn [map seq]. unfold wcov. rewrite !wB by lia. unfold wsum, six, ws, B. cbn. repeat (f_equal; try field). }
  assert (iA : inv2 [[26 / 3; 25 / 3]; [25 / 3; 26 / 3]] = Some [[26 / 17; -25 / 17]; [-25 / 17; 26 / 17]]).
  { unfold inv2, ent. cbn [nth]. cbv zeta. destruct (Req_EM_T _ 0); [lra|]. repeat (f_equal; try field). }
  assert (iB : inv2 [[1 / 2; 0]; [0; 1 / 2]] = Some [[2; 0]; [0; 2]]).
  { unfold inv2, ent. cbn [nth]. cbv zeta. destruct (Req_EM_T _ 0); [lra|]. repeat (f_equal; try field). }
  assert (uA : update_cut six [[26 / 17; -25 / 17]; [-25 / 17; 26 / 17]] [0; 0] 5 = Some B).
  { unfold update_cut. cbn [forallb six List.length Nat.eqb andb]. 
    assert (D : det [[26 / 17; -25 / 17]; [-25 / 17; 26 / 17]] = 3 / 17) by (cbn; field). rewrite D.
    set (s := sqrt (3 / 17)). assert (s * s = 3 / 17) by (apply sqrt_sqrt; lra). assert (0 <= s) by apply sqrt_pos.
    assert (4 / 10 < s < 5 / 10) by nra. clearbody s.
    assert (Q : forall x, x / s < 5 <-> x < 5 * s).
    { intros x. split; intros Hx.
      - apply (Rmult_lt_compat_r s) in Hx; [|lra]. unfold Rdiv in Hx. rewrite Rmult_assoc, Rinv_l in Hx by lra. lra.
      - apply (Rmult_lt_reg_r s); [lra|]. unfold Rdiv. rewrite Rmult_assoc, Rinv_l by lra. lra. }
    unfold B, six. cbn [map sum_n nth ent]. destruct (Rlt_dec (3 / 17) 0); [lra|]. cbv zeta. f_equal.
    repeat match goal with |- context [if Rlt_dec (?x / s) 5 then _ else _] =>
      let F := fresh in destruct (Rlt_dec (x / s) 5) as [F|F]; rewrite Q in F; cbn [ent nth] in F end;
    try reflexivity; exfalso; unfold ent in *; cbn [nth] in *; lra. }
  assert (uB : update_cut six [[2; 0]; [0; 2]] [0; 0] 5 = Some B).
  { unfold update_cut. cbn [forallb six List.length Nat.eqb andb].
    assert (D : det [[2; 0]; [0; 2]] = 2 * 2) by (cbn; ring). rewrite D, sqrt_square by lra.
    unfold B, six. cbn [map sum_n nth]. destruct (Rlt_dec (2 * 2) 0); [lra|]. cbv zeta. f_equal.
    repeat match goal with |- context [if Rlt_dec ?x 5 then _ else _] =>
      let F := fresh in destruct (Rlt_dec x 5) as [F|F] end;
    try reflexivity; exfalso; unfold ent in *; cbn [nth] in *; lra. }
  unfold fit_ellipse. fold (chosen_weights six None). fold ws. change (repeat true (List.length six)) with A.
  rewrite fit_loop_S. destruct (Rlt_dec _ _) as [_|X]; [|destruct X; exact first_pass].
  rewrite (get_covariance_spec 2 six ws Cl A eq_refl), mA, cA, iA, uA, ones_det.
  rewrite fit_loop_S.
  assert (dA : det [[26 / 3; 25 / 3]; [25 / 3; 26 / 3]] = 17 / 3) by (cbn; field).
  assert (dB : det [[1 / 2; 0]; [0; 1 / 2]] = 1 / 4) by (cbn; field).
  rewrite dA. unfold float_tolerance at 1. destruct (Rlt_dec _ _) as [_|X]; [|destruct X; rewrite Rabs_right; lra].
  rewrite (get_covariance_spec 2 six ws Cl B eq_refl), mB, cB, iB, uB.
  rewrite fit_loop_S. rewrite dB. unfold float_tolerance at 1. destruct (Rlt_dec _ _) as [_|X]; [|destruct X; rewrite Rabs_left; lra].
  rewrite (get_covariance_spec 2 six ws Cl B eq_refl), mB, cB, iB, uB.
  rewrite fit_loop_S. rewrite dB. unfold float_tolerance at 1.
  destruct (Rlt_dec _ _) as [X|_]; [rewrite Rminus_diag_eq, Rabs_R0 in X by reflexivity; lra|].
  rewrite (sum_weight_spec six ws B) by reflexivity. reflexivity.
Qed.

(** A beam a micrometre across, in metres: the hypotheses of C60_small_refuted. *)
Example C60_small_example : exists r,
  fit_ellipse inv2 [[1 / 1000000; 0]; [-1 / 1000000; 0]; [0; 1 / 1000000]; [0; -1 / 1000000]] (-1) None 10 true = inr r /\
  ent (snd r) 0 0 = 1 / 2000000000000.
Proof.
  set (pts := [[1 / 1000000; 0]; [-1 / 1000000; 0]; [0; 1 / 1000000]; [0; -1 / 1000000]]).
  assert (Cl : cloud 2 pts (chosen_weights pts None)).
  { split; [lia|]. split; [discriminate|]. split; [|split; [reflexivity|]].
    - unfold pts. intros p Hp. repeat (destruct Hp as [<-|Hp]; [reflexivity|]). destruct Hp.
    - cbn. intros w Hw. repeat (destruct Hw as [<-|Hw]; [lra|]). destruct Hw. }
  set (ws := chosen_weights pts None) in *. set (A := repeat true (List.length pts)).
  assert (W : forall j, (j < 2)%nat -> wmean pts ws A j = 0).
  { intros j Hj. destruct j as [|[|j]]; [| |lia]; unfold wmean, wsum, pts, ws, A; cbn; field. }
  assert (C : forall j k, (j < 2)%nat -> (k < 2)%nat -> wcov pts ws A j k = if Nat.eqb j k then 1 / 2000000000000 else 0).
  { intros j k Hj Hk. unfold wcov. rewrite !W by auto. destruct j as [|[|j]]; [| |lia]; (destruct k as [|[|k]]; [| |lia]);
      unfold wsum, pts, ws, A; cbn; field. }
  destruct (C60_small_refuted 2 inv2 pts None (-1) 10 true Cl inv2_ok ltac:(lia)) as (m & c & E & _ & H).
  { fold ws A. rewrite (det_ext 2 _ (fun j k => if Nat.eqb j k then 1 / 2000000000000 else 0)) by auto. cbn. lra. }
  exists (m, c). split; auto. cbn [snd]. rewrite H by lia. rewrite C by lia. reflexivity.
Qed.
