From Coq Require Import Reals ZArith Bool String List Lia Lra Psatz.
From Flocq Require Import Core BinarySingleNaN.
From Verif Require Import FloatProps.
From Verif Require Import Num WeightModel HitcoreModel HitcoreSpec PyLibModel HitPyModel BunchModel BunchSpec MomentModel EllipseModel FloatModel MomentSpec MomentProofs
  FloatArith FloatSpec FloatProofs Bin64Model Shell64Model Shell64Spec Shell64Proofs Linear64Spec Linear64Proofs Emit64Model Emit64Spec Emit64Proofs Emit64Props Beam64Spec.
Import ListNotations.
Open Scope string_scope.
Open Scope list_scope.
Open Scope R_scope.

(** ---- averages ---- *)
Section Average.
  Variable (w : World64) (hs : list nat).
  Hypothesis W0 : 0 < weight64 w hs.
  Hypothesis Pw : forall l, In l hs -> 0 <= num64 w "weight" l.
  Notation avg := (average64 w hs).

  Lemma avg_le f g : (forall l, In l hs -> f l <= g l) -> avg f <= avg g.
  Proof.
    intros H. unfold average64. apply Rmult_le_compat_r; [left; apply Rinv_0_lt_compat, W0|]. apply rsum_le. intros l Hl.
    apply Rmult_le_compat_l; [apply Pw, Hl|apply H, Hl].
  Qed.
  Lemma avg_comb f g a c : avg (fun l => a * f l + c * g l) = a * avg f + c * avg g.
  Proof.
    unfold average64. replace (rsum (fun l => num64 w "weight" l * (a * f l + c * g l)) hs) with
      (a * rsum (fun l => num64 w "weight" l * f l) hs + c * rsum (fun l => num64 w "weight" l * g l) hs); [unfold Rdiv; ring|].
    rewrite <- !rsum_scale, <- rsum_plus. apply rsum_ext. intros. ring.
  Qed.
  Lemma avg_sq f : 0 <= avg (fun l => f l * f l).
  Proof.
    unfold average64. apply Rmult_le_pos; [|left; apply Rinv_0_lt_compat, W0]. apply rsum_nonneg. intros l Hl.
    apply Rmult_le_pos; [apply Pw, Hl|apply sq_nonneg].
  Qed.

  (** Cauchy and Schwarz. *)
  Lemma avg_product f g F G : 0 < F -> 0 < G -> avg (fun l => f l * f l) <= F * F -> avg (fun l => g l * g l) <= G * G ->
    avg (fun l => Rabs (f l * g l)) <= F * G.
  Proof.
    intros PF PG HF HG. apply Rle_trans with (avg (fun l => (G / F / 2) * (f l * f l) + (F / G / 2) * (g l * g l))).
    - apply avg_le. intros l _. rewrite Rabs_mult.
      replace (f l * f l) with (Rabs (f l) * Rabs (f l)) by (rewrite <- Rabs_mult; apply Rabs_right, Rle_ge, sq_nonneg).
      replace (g l * g l) with (Rabs (g l) * Rabs (g l)) by (rewrite <- Rabs_mult; apply Rabs_right, Rle_ge, sq_nonneg).
      set (x := Rabs (f l)). set (y := Rabs (g l)).
      assert (Q : 0 <= (G * x - F * y) * (G * x - F * y) * / (2 * F * G))
        by (apply Rmult_le_pos; [apply sq_nonneg|left; apply Rinv_0_lt_compat; nra]).
      replace ((G * x - F * y) * (G * x - F * y) * / (2 * F * G)) with (G / F / 2 * (x * x) + F / G / 2 * (y * y) - x * y) in Q by (field; lra). lra.
    - rewrite avg_comb. assert (0 < / F) by (apply Rinv_0_lt_compat; lra). assert (0 < / G) by (apply Rinv_0_lt_compat; lra).
      assert (0 <= G / F / 2) by (unfold Rdiv; nra).
      assert (0 <= F / G / 2) by (unfold Rdiv; nra).
      apply Rle_trans with (G / F / 2 * (F * F) + F / G / 2 * (G * G)); [|right; field; lra].
      apply Rplus_le_compat; apply Rmult_le_compat_l; assumption.
  Qed.
End Average.

(** ---- the means of two variables ---- *)
Lemma mean_pair extra (w : World64) b u v d (mu mv : b64) : mean extra no_fixed w b [u; v] = inr d ->
  assoc d u = Some (@PFloat B64Num mu) -> assoc d v = Some (@PFloat B64Num mv) ->
  mean64 extra w b u = inr mu /\ mean64 extra w b v = inr mv.
Proof.
  destruct (string_dec u v) as [<- |N].
  - rewrite mean_same. unfold mean64. intros A B C. rewrite A. unfold bindE. rewrite B. rewrite B in C. injection C as <-. split; reflexivity.
  - unfold mean64. rewrite !mean_one. unfold mean. cbn [mean_loop assoc f_means no_fixed app]. apply String.eqb_neq in N.
    destruct (moment_about extra no_fixed w b [u] [(u, PFloat n0)]) as [?|x]; [discriminate|]. cbn [assoc app]. rewrite N.
    destruct (moment_about extra no_fixed w b [v] [(v, PFloat n0)]) as [?|y]; [discriminate|]. intros A B C. injection A as <-.
    cbn [assoc app] in B, C. rewrite String.eqb_refl in B. rewrite N, String.eqb_refl in C. injection B as <-. injection C as <-.
    unfold bindE. cbn [assoc]. rewrite !String.eqb_refl. split; reflexivity.
Qed.

(** ---- how close the reported covariances are ---- *)
Section Close.
  Variable extra : World64 -> list nat -> string -> nat -> option (PyVal B64Num).
  Variable (p : list (WOp B64Num)) (b : Bunch).
  Hypothesis Hn : never_switches p.
  Hypothesis Hs : in_step b.
  Hypothesis S0 : sane_weights (wrun p) (b_hits b).
  Variable rho : R.
  Hypothesis Pr : 0 <= rho <= 1.
  Notation w := (wrun p).
  Notation hs := (b_hits b).
  Notation avg := (average64 w hs).
  Notation n := (List.length hs).

  Lemma cov_close u v :
    (forall q l, In q [u; v] -> In l hs -> float64 w q l /\ sane_size (num64 w q l)) ->
    (forall q m l, In q [u; v] -> mean64 extra w b q = inr m -> In l hs -> sane_size (num64 w q l - B2R m)) ->
    (forall q, In q [u; v] -> 0 < true_cov w hs q q /\ near_axis w hs rho q) ->
    exists x : b64, moment extra no_fixed w b [u; v] [] = inr x /\ is_finite x = true /\
      Rabs (B2R x - true_cov w hs u v) <= cov_error n rho * (sqrt (true_cov w hs u u) * sqrt (true_cov w hs v v)).
  Proof.
    intros HF HM HV. pose proof (W_gt0 w hs S0) as W0.
    assert (Pw : forall l, In l hs -> 0 <= num64 w "weight" l).
    { intros l Hl. destruct S0 as (Q & _). destruct (Q l Hl) as [_ [L _]]. apply Rle_trans with (2 := L). left. apply Rinv_0_lt_compat, pow_lt. lra. }
    destruct (C84_covariance extra p b u v Hn Hs S0 HF) as (d & mu & mv & E & Eu & Ev & C).
    destruct (mean_pair extra w b u v d mu mv E Eu Ev) as [Mu Mv].
    destruct C as (x & X & F & B).
    { intros l Hl. split; [apply (HM u); [left; reflexivity|exact Mu|exact Hl]|apply (HM v); [right; left; reflexivity|exact Mv|exact Hl]]. }
    exists x. split; [exact X|]. split; [exact F|].
    destruct (C84_mean extra p b [u; v] Hn Hs S0 HF) as (d' & E' & _ & M). rewrite E in E'. injection E' as <-.
    destruct (HV u (or_introl eq_refl)) as [Pu Nu]. destruct (HV v (or_intror (or_introl eq_refl))) as [Pv Nv].
    assert (Near : forall q (m : b64), In q [u; v] -> assoc d q = Some (@PFloat B64Num m) -> 0 < true_cov w hs q q -> near_axis w hs rho q ->
      avg (fun l => (num64 w q l - B2R m) * (num64 w q l - B2R m)) <= (sqrt 2 * sqrt (true_cov w hs q q)) * (sqrt 2 * sqrt (true_cov w hs q q))).
    { intros q m Hq Em Pq Nq. destruct (M q Hq) as (m' & E' & _ & Bm). rewrite Em in E'. injection E' as <-.
      pose proof (Rle_trans _ _ _ Bm Nq) as Q. rewrite (average64_lin w hs (num64 w q) (num64 w q)) by exact W0.
      assert (T : true_cov w hs q q = avg (fun l => num64 w q l * num64 w q l) - avg (num64 w q) * avg (num64 w q))
        by (unfold true_cov; rewrite (average64_lin w hs (num64 w q) (num64 w q)) by exact W0; ring).
      pose proof (sqrt_sqrt 2 ltac:(lra)) as S2. pose proof (sqrt_sqrt _ (Rlt_le _ _ Pq)) as Sq. pose proof (sqrt_lt_R0 _ Pq) as Ps.
      set (s := sqrt (true_cov w hs q q)) in *. set (mm := B2R m) in *. set (z := avg (num64 w q)) in *.
      apply Rle_trans with (true_cov w hs q q + (mm - z) * (mm - z)); [rewrite T; right; ring|].
      assert (Rabs (mm - z) <= s) by (apply Rle_trans with (1 := Q); nra).
      assert ((mm - z) * (mm - z) <= s * s).
      { replace ((mm - z) * (mm - z)) with (Rabs (mm - z) * Rabs (mm - z)) by (rewrite <- Rabs_mult; apply Rabs_right, Rle_ge, sq_nonneg).
        pose proof (Rabs_pos (mm - z)). apply Rmult_le_compat; assumption. }
      replace (sqrt 2 * s * (sqrt 2 * s)) with (sqrt 2 * sqrt 2 * (s * s)) by ring. rewrite S2. lra. }
    pose proof (Near u mu (or_introl eq_refl) Eu Pu Nu) as Au. pose proof (Near v mv (or_intror (or_introl eq_refl)) Ev Pv Nv) as Av.
    pose proof (sqrt_lt_R0 _ Pu) as Su. pose proof (sqrt_lt_R0 _ Pv) as Sv. pose proof (sqrt_lt_R0 2 ltac:(lra)) as S2.
    unfold near_axis in Nu, Nv. set (su := sqrt (true_cov w hs u u)) in *. set (sv := sqrt (true_cov w hs v v)) in *.
    pose proof (avg_product w hs W0 Pw (fun l => num64 w u l - B2R mu) (fun l => num64 w v l - B2R mv) (sqrt 2 * su) (sqrt 2 * sv)
      (Rmult_lt_0_compat _ _ S2 Su) (Rmult_lt_0_compat _ _ S2 Sv) Au Av) as CS. cbv beta in CS.
    replace (sqrt 2 * su * (sqrt 2 * sv)) with (sqrt 2 * sqrt 2 * (su * sv)) in CS by ring. rewrite sqrt_sqrt in CS by lra.
    eapply Rle_trans; [exact B|]. unfold cov_error. rewrite Rmult_plus_distr_r. apply Rplus_le_compat.
    - apply Rle_trans with (units (2 * n + 5) * (2 * (su * sv))); [|right; ring]. apply Rmult_le_compat_l; [|exact CS].
      unfold units. apply Rmult_le_pos; [apply pos_INR|left; apply Rinv_0_lt_compat, pow_lt; lra].
    - replace (rho * rho * (su * sv)) with (rho * su * (rho * sv)) by ring.
      assert (U0 : forall q, 0 <= units (2 * n + 3) * avg (fun l => Rabs (num64 w q l))).
      { intros q. apply Rmult_le_pos; [unfold units; apply Rmult_le_pos; [apply pos_INR|left; apply Rinv_0_lt_compat, pow_lt; lra]|].
        unfold average64. apply Rmult_le_pos; [|left; apply Rinv_0_lt_compat, W0]. apply rsum_nonneg. intros l Hl. apply Rmult_le_pos; [apply Pw, Hl|apply Rabs_pos]. }
      apply Rmult_le_compat; [apply U0|apply U0|exact Nu|exact Nv].
  Qed.
End Close.

(** ---- determinants of nearby matrices ---- *)
Lemma nearby_det A C D a c d eta : 0 < A -> 0 < D -> 0 < A * D - C * C -> 0 <= eta -> spread A C D * eta <= / 1000 ->
  Rabs (a - A) <= eta * A -> Rabs (d - D) <= eta * D -> Rabs (c - C) <= eta * (sqrt A * sqrt D) ->
  exists th, Rabs th <= 41 / 10 * (spread A C D * eta) /\ a * d - c * c = (A * D - C * C) * (1 + th) /\ spread a c d <= 11 / 10 * spread A C D /\ 1 <= spread A C D.
Proof.
  intros PA PD P0 Pe He Ha Hd Hc. pose proof (sqrt_lt_R0 _ PA) as SA. pose proof (sqrt_lt_R0 _ PD) as SD.
  pose proof (sqrt_sqrt A (Rlt_le _ _ PA)) as QA. pose proof (sqrt_sqrt D (Rlt_le _ _ PD)) as QD.
  set (g := sqrt A * sqrt D) in *. assert (Pg : 0 < g) by (apply Rmult_lt_0_compat; assumption).
  assert (Qg : g * g = A * D) by (unfold g; replace (sqrt A * sqrt D * (sqrt A * sqrt D)) with (sqrt A * sqrt A * (sqrt D * sqrt D)) by ring; rewrite QA, QD; reflexivity).
  set (K := spread A C D) in *. set (D0 := A * D - C * C) in *.
  assert (EK : A * D + C * C = K * D0) by (unfold K, spread, D0 in *; field; unfold D0 in P0; lra).
  pose proof (sq_nonneg C) as PC. assert (K1 : 1 <= K).
  { apply Rmult_le_reg_r with D0; [exact P0|]. rewrite <- EK. unfold D0. lra. }
  assert (E1 : eta <= / 1000) by nra.
  assert (AD : A * D <= K * D0) by lra.
  assert (C1 : Rabs C <= g).
  { apply Rsqr_incr_0; [|apply Rabs_pos|lra]. rewrite <- Rsqr_abs. unfold Rsqr. rewrite Qg. unfold D0 in P0. lra. }
  apply Rabs_le_inv in Ha. apply Rabs_le_inv in Hd.
  assert (X : Rabs (a * d - A * D) <= 201 / 100 * eta * (A * D)).
  { apply Rabs_le. assert (0 <= eta * A) by nra. assert (0 <= eta * D) by nra. assert (0 <= eta * (A * D)) by (apply Rmult_le_pos; [lra|nra]).
    assert (U : a * d <= (A + eta * A) * (D + eta * D)) by (apply Rmult_le_compat; nra).
    assert (V : (A - eta * A) * (D - eta * D) <= a * d) by (apply Rmult_le_compat; nra).
    assert (eta * (eta * (A * D)) <= / 1000 * (eta * (A * D))) by (apply Rmult_le_compat_r; assumption). split; nra. }
  assert (Y : Rabs (c * c - C * C) <= 201 / 100 * eta * (A * D)).
  { replace (c * c - C * C) with ((c - C) * ((c - C) + (C + C))) by ring. rewrite Rabs_mult.
    assert (T : Rabs (c - C + (C + C)) <= eta * g + (g + g)).
    { eapply Rle_trans; [apply Rabs_triang|]. apply Rplus_le_compat; [exact Hc|]. eapply Rle_trans; [apply Rabs_triang|]. lra. }
    assert (0 <= eta * g) by nra. pose proof (Rabs_pos (c - C)). pose proof (Rabs_pos (c - C + (C + C))).
    apply Rle_trans with (eta * g * (eta * g + (g + g))); [apply Rmult_le_compat; assumption|]. rewrite <- Qg.
    assert (0 <= eta * (g * g)) by (apply Rmult_le_pos; nra). nra. }
  set (th := (a * d - c * c) / D0 - 1).
  assert (Eth : a * d - c * c = D0 * (1 + th)) by (unfold th; field; lra).
  assert (Z : Rabs (a * d - c * c - D0) <= 402 / 100 * eta * (A * D)).
  { unfold D0. replace (a * d - c * c - (A * D - C * C)) with ((a * d - A * D) + - (c * c - C * C)) by ring.
    eapply Rle_trans; [apply Rabs_triang|]. rewrite Rabs_Ropp. lra. }
  assert (Hth : Rabs th <= 41 / 10 * (K * eta)).
  { rewrite Eth in Z. replace (D0 * (1 + th) - D0) with (D0 * th) in Z by ring. rewrite Rabs_mult, (Rabs_right D0) in Z by lra.
    apply Rmult_le_reg_l with D0; [exact P0|]. apply Rle_trans with (1 := Z). assert (0 <= K * D0) by nra. assert (eta * (A * D) <= eta * (K * D0)) by (apply Rmult_le_compat_l; lra).
    assert (0 <= eta * (K * D0)) by (apply Rmult_le_pos; lra). nra. }
  exists th. split; [exact Hth|]. split; [exact Eth|]. split; [|exact K1].
  assert (T2 : - (41 / 10000) <= th <= 41 / 10000) by (apply Rabs_le_inv; lra).
  assert (PDl : 0 < a * d - c * c) by (rewrite Eth; apply Rmult_lt_0_compat; lra).
  unfold spread at 1. apply Rmult_le_reg_r with (a * d - c * c); [exact PDl|]. unfold Rdiv. rewrite Rmult_assoc, Rinv_l, Rmult_1_r by lra.
  assert (N : a * d + c * c <= A * D + C * C + 402 / 100 * eta * (A * D)).
  { apply Rabs_le_inv in X. apply Rabs_le_inv in Y. lra. }
  apply Rle_trans with (1 := N). rewrite EK, Eth. assert (0 < A * D) by nra.
  assert (eta * (A * D) <= / 1000 * (K * D0)) by (apply Rmult_le_compat; lra).
  assert (0 < K * D0) by nra. assert (11 / 10 * K * (D0 * (1 + th)) >= 11 / 10 * (K * D0) * (1 - 41 / 10000)) by (assert (K * D0 * th >= K * D0 * - (41 / 10000)) by (apply Rmult_ge_compat_l; lra); lra).
  lra.
Qed.
