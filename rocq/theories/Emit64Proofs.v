From Coq Require Import Reals ZArith Bool String List Lia Lra Psatz.
From Flocq Require Import Core BinarySingleNaN.
From Verif Require Import FloatProps.
From Verif Require Import Num WeightModel HitcoreModel PyLibModel HitPyModel BunchModel MomentModel EllipseModel FloatModel MomentSpec FloatArith
  Bin64Model Bin64Spec Bin64Proofs Bin64Props Shell64Model Shell64Spec Shell64Proofs Shell64Props Derive64Model Derive64Proofs Linear64Model
  Linear64Spec Linear64Proofs Linear64Props Emit64Model Emit64Spec.
Import ListNotations.
Open Scope string_scope.
Open Scope list_scope.
Open Scope R_scope.

Lemma unit_u : unit = u.
Proof. rewrite (pow_inv64 53). reflexivity. Qed.

(** ---- doubles on a grid ---- *)
Lemma on_grid e (x : b64) : (0 <= e <= 900)%Z -> scaled e (val x) -> exists k, val x = IZR k * pow2 (- (e + 52)).
Proof.
  intros He [Z|[S _]]; [exists 0%Z; rewrite Z; ring|].
  pose proof (generic_format_B2R prec64 emax64 x) as G. unfold generic_format in G.
  set (c := cexp radix2 (SpecFloat.fexp prec64 emax64) (val x)) in *.
  assert (C : (- (e + 52) <= c)%Z).
  { unfold c, cexp. replace (- e)%Z with ((- e + 1) - 1)%Z in S by lia. pose proof (mag_ge_bpow radix2 (val x) (- e + 1) S) as M.
    unfold SpecFloat.fexp. eapply Z.le_trans; [|apply Z.le_max_l]. assert (H : prec64 = 53%Z) by reflexivity. lia. }
  exists (Ztrunc (scaled_mantissa radix2 (SpecFloat.fexp prec64 emax64) (val x)) * 2 ^ (c + (e + 52)))%Z.
  rewrite G at 1. unfold F2R. cbn [Fnum Fexp]. rewrite mult_IZR, Rmult_assoc. f_equal.
  change 2%Z with (radix_val radix2). rewrite IZR_Zpower by lia. rewrite <- bpow_plus. f_equal. lia.
Qed.
Lemma grid_finer k e f : (e <= f)%Z -> exists j, IZR k * pow2 (- e) = IZR j * pow2 (- f).
Proof.
  intros H. exists (k * 2 ^ (f - e))%Z. rewrite mult_IZR, Rmult_assoc. f_equal. change 2%Z with (radix_val radix2).
  rewrite IZR_Zpower by lia. rewrite <- bpow_plus. f_equal. lia.
Qed.
Lemma grid_diff (x y : b64) e f : (0 <= e <= f)%Z -> (f <= 900)%Z -> scaled e (val x) -> scaled f (val y) -> scaled (f + 52) (val x - val y).
Proof.
  intros He Hf Sx Sy. destruct (on_grid e x) as (j & Ej); [lia|exact Sx|]. destruct (on_grid f y) as (k & Ek); [lia|exact Sy|].
  destruct (grid_finer j (e + 52) (f + 52)) as (i & Ei); [lia|]. rewrite Ei in Ej.
  assert (D : val x - val y = IZR (i - k) * pow2 (- (f + 52))) by (rewrite minus_IZR, Ej, Ek; ring).
  destruct (Z.eq_dec (i - k) 0) as [Z|Z]; [left; rewrite D, Z; ring|right]. split.
  - rewrite D, Rabs_mult, (Rabs_right (pow2 _)) by (apply Rle_ge, bpow_ge_0).
    rewrite <- (Rmult_1_l (pow2 (- (f + 52)))) at 1. apply Rmult_le_compat_r; [apply bpow_ge_0|]. rewrite <- abs_IZR. apply IZR_le. lia.
  - unfold Rminus. eapply Rle_trans; [apply Rabs_triang|]. rewrite Rabs_Ropp.
    pose proof (scaled_abs e _ ltac:(lia) Sx) as A. pose proof (scaled_abs f _ ltac:(lia) Sy) as B.
    assert (pow2 e <= pow2 f) by (apply bpow_le; lia).
    apply Rle_trans with (pow2 (f + 1)); [rewrite bpow_plus; simpl (pow2 1); lra|apply bpow_le; lia].
Qed.

(** ---- the determinant ---- *)
(** p * (q - (r / p) * s) in doubles. *)
Lemma pivot_ok (p q r s : b64) : usual p -> usual q -> usual r -> usual s -> val p <> 0 ->
  let z := fmul p (fsub q (fmul (fdiv r p) s)) in
  fin z = true /\ Rabs (val z - (val p * val q - val r * val s)) <= 8 * u * (Rabs (val p * val q) + Rabs (val r * val s)).
Proof.
  intros Up Uq Ur Us N z. apply usual_scaled in Up, Uq, Ur, Us. destruct Up as [Fp Sp], Uq as [Fq Sq], Ur as [Fr Sr], Us as [Fs Ss].
  pose proof u_pos as Pu.
  destruct (div_like r p 0 0 _ _ 200 200 Fr (like_refl _) (like_refl _) N Sr Sp) as (F1 & K1 & S1); try lia. cbn [Nat.add] in K1.
  destruct (mul_like _ s 1 0 _ _ (200 + 200) 200 F1 Fs K1 (like_refl _) S1 Ss) as (F2 & K2); try lia. cbn [Nat.add] in K2.
  pose proof (scaled_mul _ _ _ _ S1 Ss) as S2. change (200 + 200 + 200)%Z with 600%Z in S2.
  pose proof (like_scaled 2 600 _ _ ltac:(apply small_n; lia) K2 S2) as S2'. change (600 + 1)%Z with 601%Z in S2'.
  assert (S3 : scaled 653 (val q - val (fmul (fdiv r p) s))) by (apply (grid_diff q _ 200 601); [lia|lia|exact Sq|exact S2']).
  destruct (sub_ok q _ Fq F2) as (F3 & d1 & D1 & V3); [eapply Rle_trans; [exact (scaled_abs 653 _ ltac:(lia) S3)|apply bpow_le; lia]|].
  assert (L3 : like 1 (val q - val (fmul (fdiv r p) s)) (val (fsub q (fmul (fdiv r p) s)))) by (apply (like_one _ _ d1); assumption).
  destruct (mul_like p _ 0 1 _ _ 200 653 Fp F3 (like_refl _) L3 Sp S3) as (F4 & K4); try lia. cbn [Nat.add] in K4.
  split; [exact F4|]. destruct K4 as (g & G & E4). destruct K2 as (h & H & E2). unfold z. rewrite E4, E2.
  replace (val p * (val q - val r / val p * val s * h) * g - (val p * val q - val r * val s))
    with (val p * val q * (g - 1) + - (val r * val s * (h * g - 1))) by (field; exact N).
  assert (Qg : Rabs (g - 1) <= 4 * u).
  { apply near_close in G; [|apply small_n; lia]. change (INR 2) with 2 in G. lra. }
  assert (Qh : Rabs (h * g - 1) <= 8 * u).
  { pose proof (near_mul _ _ _ _ H G) as HG. apply near_close in HG; [|apply small_n; lia]. cbn [Nat.add] in HG. change (INR 4) with (INR (2 + 2)) in HG.
    rewrite plus_INR in HG. change (INR 2) with 2 in HG. lra. }
  eapply Rle_trans; [apply Rabs_triang|]. rewrite Rabs_Ropp, !(Rabs_mult (_ * _) _).
  pose proof (Rmult_le_compat_l _ _ _ (Rabs_pos (val p * val q)) Qg). pose proof (Rmult_le_compat_l _ _ _ (Rabs_pos (val r * val s)) Qh).
  pose proof (Rabs_pos (val p * val q)). nra.
Qed.

Lemma fabs_fin (x : b64) : fin x = true -> fin (fabs x) = true.
Proof. destruct x; try discriminate; reflexivity. Qed.

Lemma lu_good : good_det lu_det.
Proof.
  intros a c d Ua Uc Ud x y. rewrite unit_u. unfold lu_det.
  destruct (usual_scaled a Ua) as [Fa Sa]. destruct (usual_scaled c Uc) as [Fc Sc].
  assert (Yp : Rabs y = y) by (apply Rabs_right, Rle_ge, sq_nonneg).
  rewrite (flt_finite _ _ (fabs_fin a Fa) (fabs_fin c Fc)), !B2R_Babs. destruct (rlt _ _) eqn:E.
  - apply rlt_true in E. assert (N : val c <> 0) by (intros Z; rewrite Z, Rabs_R0 in E; pose proof (Rabs_pos (val a)); lra).
    destruct (pivot_ok c c a d Uc Uc Ua Ud N) as [F B]. split; [rewrite is_finite_Bopp; exact F|]. rewrite B2R_Bopp.
    replace (- val (fmul c (fsub c (fmul (fdiv a c) d))) - (x - y)) with (- (val (fmul c (fsub c (fmul (fdiv a c) d))) - (val c * val c - val a * val d))) by (unfold x, y; ring).
    rewrite Rabs_Ropp. fold x y in B |- *. rewrite Yp in B. rewrite (Rplus_comm (Rabs x) y). exact B.
  - apply rlt_false in E. destruct (feq a fzero) eqn:Z.
    + apply feq_zero in Z; [|exact Fa]. rewrite Z, Rabs_R0 in E. assert (Zc : val c = 0).
      { destruct (Req_dec (val c) 0) as [K|K]; [exact K|]. apply Rabs_pos_lt in K. lra. }
      split; [reflexivity|]. unfold x, y. rewrite Z, Zc. change (val fzero) with 0. rewrite !Rmult_0_l, !Rminus_0_r, Rabs_R0. lra.
    + assert (N : val a <> 0) by (intros K; apply (feq_zero a Fa) in K; congruence).
      destruct (pivot_ok a d c c Ua Ud Uc Uc N) as [F B]. split; [exact F|]. fold x y in B. rewrite Yp in B. exact B.
Qed.

(** ---- the root ---- *)
Definition root_plain (x h : b64) : b64 := Bsqrt mode_NE x.
Lemma root_good : good_root root_plain.
Proof.
  intros x h F Fh Vh. split.
  - intros P W. pose proof (half_right plain plain_accurate x F P W) as K. exact K.
  - intros Neg. unfold root_plain. destruct x as [s|s| |[] m e B]; try discriminate F.
    + cbn [B2R] in Neg. lra.
    + reflexivity.
    + exfalso. assert (0 < B2R (B754_finite false m e B)); [|lra]. apply F2R_gt_0. cbn. lia.
Qed.

Lemma sqrt_near t : Rabs t <= 1 / 2 -> Rabs (sqrt (1 + t) - 1) <= Rabs t.
Proof.
  intros H. assert (P : 0 <= 1 + t) by (unfold Rabs in H; destruct (Rcase_abs t); lra).
  pose proof (sqrt_pos (1 + t)) as S. pose proof (sqrt_sqrt _ P) as Q. set (s := sqrt (1 + t)) in *.
  assert (E : t = (s - 1) * (s + 1)) by nra. clearbody s. rewrite E, Rabs_mult, (Rabs_right (s + 1)) by lra. pose proof (Rabs_pos (s - 1)). nra.
Qed.

Definition half64 : b64 := fdiv (b64_of_Z 1) (b64_of_Z 2).
Lemma half_val : fin half64 = true /\ val half64 = 1 / 2.
Proof. split; [apply fin_SF; vm_compute; reflexivity|]. unfold half64. b64_val. lra. Qed.
Lemma one64 : fin (b64_of_Z 1) = true /\ val (b64_of_Z 1) = 1.
Proof. exact one_val. Qed.

Lemma everyday_scaled x : everyday x -> fin x = true /\ scaled 60 (val x) /\ val x <> 0.
Proof.
  intros (F & A & B). rewrite (pow_inv64 60) in A. rewrite (pow_nat64 60) in B. change (Z.of_nat 60) with 60%Z in *.
  split; [exact F|]. split; [right; split; assumption|]. intros Z. rewrite Z, Rabs_R0 in A. pose proof (bpow_gt_0 radix2 (- (60))). lra.
Qed.

Section Emit.
  Variable (det : Matrix64 -> b64) (pow : b64 -> b64 -> b64).
  Hypothesis Gd : good_det det.
  Hypothesis Gr : good_root pow.
  Variable (a c d mass : b64).
  Hypothesis Ua : usual a.
  Hypothesis Uc : usual c.
  Hypothesis Ud : usual d.
  Hypothesis Em : everyday mass.
  Hypothesis Pm : 0 < val mass.
  Let D : R := val a * val d - val c * val c.
  Let K : R := spread (val a) (val c) (val d).
  Hypothesis PD : 0 < D.
  Hypothesis HK : K <= 2 ^ 40.

  Let e : b64 := fdiv (pow (det [[a; c]; [c; d]]) half64) mass.

  Lemma spread_eq : (val a * val d + val c * val c) = K * D.
  Proof. unfold K, spread, D. field. unfold D in PD. lra. Qed.
  Lemma spread_ge : 1 <= K.
  Proof.
    pose proof spread_eq as E. apply Rmult_le_reg_r with D; [exact PD|]. rewrite <- E. unfold D. pose proof (sq_nonneg (val c)). lra.
  Qed.
  Lemma spread_u : K * u <= / 8192.
  Proof.
    apply Rle_trans with (2 ^ 40 * u); [apply Rmult_le_compat_r; [left; apply u_pos|exact HK]|].
    rewrite (pow_nat64 40). unfold u. rewrite <- bpow_plus. simpl. lra.
  Qed.
  Lemma d_scaled : scaled 440 D.
  Proof.
    destruct (usual_scaled a Ua) as [_ Sa]. destruct (usual_scaled d Ud) as [_ Sd]. pose proof (scaled_mul _ _ _ _ Sa Sd) as Sx. change (200 + 200)%Z with 400%Z in Sx.
    pose proof (sq_nonneg (val c)) as Y. assert (Px : 0 < val a * val d) by (unfold D in PD; lra).
    destruct Sx as [Z|[L U]]; [lra|]. rewrite Rabs_right in L, U by lra. right. rewrite Rabs_right by lra.
    split; [|apply Rle_trans with (pow2 400); [unfold D; lra|apply bpow_le; lia]].
    apply Rmult_le_reg_l with (pow2 40); [apply bpow_gt_0|]. rewrite <- bpow_plus. change (40 + - (440))%Z with (- (400))%Z.
    assert (HK' : K <= pow2 40) by (change (pow2 40) with (pow2 (Z.of_nat 40)); rewrite <- (pow_nat64 40); exact HK). pose proof spread_eq as E.
    apply Rle_trans with (K * D); [lra|]. apply Rmult_le_compat_r; lra.
  Qed.

  Lemma emit_value : fin e = true /\ exists t, Rabs t <= (8 * K + 16) * u /\ val e = sqrt D / val mass * (1 + t).
  Proof.
    destruct (Gd a c d Ua Uc Ud) as [Fx B]. pose proof spread_u as Ku. pose proof spread_ge as K1. pose proof u_pos as Pu. pose proof u_small as Su.
    assert (Px : 0 < val a * val d) by (unfold D in PD; pose proof (sq_nonneg (val c)); lra).
    rewrite (Rabs_right (val a * val d)) in B by lra. rewrite unit_u, spread_eq in B. fold D in B.
    set (x := det [[a; c]; [c; d]]) in *. set (q := val x / D - 1).
    assert (Ex : val x = D * (1 + q)) by (unfold q; field; lra).
    assert (Q : Rabs q <= 8 * K * u).
    { rewrite Ex in B. replace (D * (1 + q) - D) with (D * q) in B by ring. rewrite Rabs_mult, (Rabs_right D) in B by lra.
      apply Rmult_le_reg_l with D; [exact PD|]. lra. }
    assert (Q2 : Rabs q <= / 1024) by lra.
    assert (Q3 : - / 1024 <= q <= / 1024) by (apply Rabs_le_inv; exact Q2).
    assert (Px' : 0 < val x) by (rewrite Ex; apply Rmult_lt_0_compat; lra).
    assert (Sx : scaled 442 (val x)).
    { destruct d_scaled as [Z|[L U]]; [lra|]. rewrite Rabs_right in L, U by lra. right. rewrite Rabs_right by lra. split.
      - apply Rle_trans with (pow2 (- (440)) * / 2); [apply Rle_trans with (pow2 (- (441))); [apply bpow_le; lia|change (- (441))%Z with (- (440) + - (1))%Z; rewrite bpow_plus; simpl (pow2 (- (1))); lra]|].
        rewrite Ex. nra.
      - apply Rle_trans with (pow2 440 * 2); [rewrite Ex; nra|]. apply Rle_trans with (pow2 441); [change 441%Z with (440 + 1)%Z; rewrite bpow_plus; simpl (pow2 1); lra|apply bpow_le; lia]. }
    destruct half_val as [Fh Vh]. destruct (Gr x half64 Fx Fh Vh) as [R1 _].
    assert (W : within 900 (val x)) by (apply within_scaled; [lra|]; apply (scaled_le 442); [lia|exact Sx]).
    destruct (right_near _ _ _ (R1 ltac:(lra) W) (sqrt_pos _)) as (Fp & h & Hh & Vp).
    destruct (everyday_scaled mass Em) as (Fm & Sm & Nm).
    assert (Sq : scaled 221 (sqrt (val x))) by (apply scaled_sqrt; [lra|exact Sx]).
    assert (Lp : like 5 (sqrt (val x)) (val (pow x half64))) by (exists h; split; [exact Hh|exact Vp]).
    destruct (div_like (pow x half64) mass 5 0 _ _ 221 60 Fp Lp (like_refl _) Nm Sq Sm) as (Fe & (g & G & Ve) & _); try lia. cbn [Nat.add] in G.
    split; [exact Fe|]. exists (sqrt (1 + q) * g - 1). split.
    - pose proof (sqrt_near q) as Sn. assert (Sq1 : Rabs (sqrt (1 + q) - 1) <= 8 * K * u) by (eapply Rle_trans; [apply Sn; lra|exact Q]).
      apply near_close in G; [|apply small_n; lia]. assert (I6 : INR 6 = 6) by (simpl; lra). rewrite I6 in G.
      replace (sqrt (1 + q) * g - 1) with ((sqrt (1 + q) - 1) + (g - 1) + (sqrt (1 + q) - 1) * (g - 1)) by ring.
      eapply Rle_trans; [apply Rabs_triang|]. eapply Rle_trans; [apply Rplus_le_compat_r, Rabs_triang|]. rewrite Rabs_mult.
      pose proof (Rabs_pos (sqrt (1 + q) - 1)) as P1. pose proof (Rabs_pos (g - 1)) as P2.
      assert (Rabs (sqrt (1 + q) - 1) * Rabs (g - 1) <= / 1024 * (12 * u)) by (apply Rmult_le_compat; lra). lra.
    - unfold e. rewrite Ve, Ex, sqrt_mult by lra. replace (1 + (sqrt (1 + q) * g - 1)) with (sqrt (1 + q) * g) by ring. field. exact Nm.
  Qed.

  Lemma emit_nan : val (det [[a; c]; [c; d]]) < 0 -> is_nan e = true.
  Proof.
    intros N. destruct (Gd a c d Ua Uc Ud) as [Fx _]. destruct half_val as [Fh Vh]. destruct (Gr _ half64 Fx Fh Vh) as [_ R2].
    specialize (R2 N). unfold e. destruct (pow _ half64); try discriminate R2. reflexivity.
  Qed.
End Emit.

(** ---- Twiss parameters from the emittance ---- *)
Lemma near_abs n k h : near n h -> (n <= 100)%nat -> 2 * INR n <= k -> Rabs (h - 1) <= k * u.
Proof.
  intros H L Hk. apply near_close in H; [|apply small_n; lia]. pose proof u_pos. eapply Rle_trans; [exact H|]. apply Rmult_le_compat_r; lra.
Qed.

(** A quotient by something that is nearly s. *)
Lemma quotient_near h t K : 1 <= K -> K * u <= / 8192 -> Rabs (h - 1) <= 8 * u -> Rabs t <= 24 * K * u ->
  Rabs (h / (1 + t) - 1) <= 40 * K * u.
Proof.
  intros HK Ku Hh Ht. pose proof u_pos as Pu. assert (T : Rabs t <= / 256) by lra.
  assert (T2 : - / 256 <= t <= / 256) by (apply Rabs_le_inv; exact T).
  replace (h / (1 + t) - 1) with ((h - 1 + - t) * / (1 + t)) by (field; lra).
  rewrite Rabs_mult, (Rabs_right (/ (1 + t))) by (apply Rle_ge; left; apply Rinv_0_lt_compat; lra).
  assert (I : / (1 + t) <= 1 + / 100).
  { apply Rmult_le_reg_l with (1 + t); [lra|]. rewrite Rinv_r by lra. nra. }
  assert (A : Rabs (h - 1 + - t) <= 32 * K * u).
  { eapply Rle_trans; [apply Rabs_triang|]. rewrite Rabs_Ropp. assert (u <= K * u) by nra. lra. }
  assert (0 <= / (1 + t)) by (left; apply Rinv_0_lt_compat; lra). pose proof (Rabs_pos (h - 1 + - t)).
  apply Rle_trans with (32 * K * u * (1 + / 100)); [apply Rmult_le_compat; lra|]. assert (0 <= K * u) by nra. lra.
Qed.

(** beta * gamma - alpha^2 = 1. *)
Lemma twiss_near x y D K s t h1 h3 : 0 <= y -> D = x - y -> 0 < D -> x + y = K * D -> 1 <= K -> K * u <= / 8192 ->
  s * s = D * ((1 + t) * (1 + t)) -> s <> 0 -> Rabs t <= 24 * K * u -> Rabs (h1 - 1) <= 16 * u -> Rabs (h3 - 1) <= 16 * u ->
  Rabs (x / (s * s) * h1 - y / (s * s) * h3 - 1) <= 200 * K * u.
Proof.
  intros Py ED PD EK HK Ku Es Ns Ht H1 H3. pose proof u_pos as Pu. assert (T : Rabs t <= / 256) by lra.
  assert (T2 : - / 256 <= t <= / 256) by (apply Rabs_le_inv; exact T).
  assert (Q : / 2 <= (1 + t) * (1 + t)) by nra. rewrite Es. set (q := (1 + t) * (1 + t)) in *.
  replace (x / (D * q) * h1 - y / (D * q) * h3 - 1) with ((x * (h1 - 1) + - (y * (h3 - 1)) + - (D * (q - 1))) * / (D * q)).
  2:{ rewrite ED. field. split; [lra|rewrite <- ED; lra]. }
  assert (Pq : 0 < D * q) by (apply Rmult_lt_0_compat; lra).
  rewrite Rabs_mult, (Rabs_right (/ (D * q))) by (apply Rle_ge; left; apply Rinv_0_lt_compat; exact Pq).
  apply Rmult_le_reg_r with (D * q); [exact Pq|]. rewrite Rmult_assoc, Rinv_l by lra. rewrite Rmult_1_r.
  assert (Px : 0 < x) by lra.
  assert (A : Rabs (x * (h1 - 1) + - (y * (h3 - 1)) + - (D * (q - 1))) <= 16 * u * (K * D) + D * (72 * K * u)).
  { eapply Rle_trans; [apply Rabs_triang|]. eapply Rle_trans; [apply Rplus_le_compat_r, Rabs_triang|]. rewrite !Rabs_Ropp, !Rabs_mult, (Rabs_right x), (Rabs_right y), (Rabs_right D) by lra.
    rewrite <- EK. pose proof (Rmult_le_compat_l x _ _ ltac:(lra) H1) as M1. pose proof (Rmult_le_compat_l y _ _ Py H3) as M2.
    assert (Qt : Rabs (q - 1) <= 72 * K * u).
    { unfold q. replace ((1 + t) * (1 + t) - 1) with (t * (2 + t)) by ring. rewrite Rabs_mult, (Rabs_right (2 + t)) by lra.
      pose proof (Rabs_pos t). nra. }
    pose proof (Rmult_le_compat_l D _ _ ltac:(lra) Qt). lra. }
  eapply Rle_trans; [exact A|]. assert (0 <= K * u) by nra. assert (0 <= D * (K * u)) by nra.
  apply Rle_trans with (88 * (D * (K * u))); [lra|]. apply Rle_trans with (200 * K * u * (D * / 2)); [lra|].
  apply Rmult_le_compat_l; [nra|]. apply Rmult_le_compat_l; lra.
Qed.

Lemma mul_one (x : b64) : fin x = true -> fin (fmul x (b64_of_Z 1)) = true /\ val (fmul x (b64_of_Z 1)) = val x.
Proof.
  intros F. destruct one64 as [F1 V1]. pose proof (Bmult_correct prec64 emax64 _ _ mode_NE x (b64_of_Z 1)) as C. rewrite V1, Rmult_1_r in C.
  assert (E : round radix2 (SpecFloat.fexp prec64 emax64) (round_mode mode_NE) (val x) = val x)
    by (apply round_generic; [apply valid_rnd_N|apply generic_format_B2R]).
  rewrite E in C. rewrite Rlt_bool_true in C by apply abs_B2R_lt_emax. destruct C as (C1 & C2 & _). rewrite F, F1 in C2. split; [exact C2|exact C1].
Qed.
Lemma zero_plus (x : b64) : fin x = true -> fin (fadd fzero x) = true /\ val (fadd fzero x) = val x.
Proof. intros F. destruct (add_exact fzero x eq_refl F) as [A B]; [left; reflexivity|]. split; [exact A|]. rewrite B. change (val fzero) with 0. ring. Qed.

Section Twiss.
  Variable (a c d mass P e : b64).
  Hypothesis Ua : usual a.
  Hypothesis Uc : usual c.
  Hypothesis Ud : usual d.
  Hypothesis Em : everyday mass.
  Hypothesis Pm : 0 < val mass.
  Hypothesis EP : everyday P.
  Let D : R := val a * val d - val c * val c.
  Let K : R := spread (val a) (val c) (val d).
  Hypothesis PD : 0 < D.
  Hypothesis HK : K <= 2 ^ 40.
  Variable t : R.
  Hypothesis Fe : fin e = true.
  Hypothesis Ht : Rabs t <= (8 * K + 16) * u.
  Hypothesis Ve : val e = sqrt D / val mass * (1 + t).

  Lemma t_small : Rabs t <= 24 * K * u /\ - / 256 <= t <= / 256 /\ 1 <= K /\ K * u <= / 8192.
  Proof.
    pose proof (spread_ge a c d PD) as G. fold K in G. pose proof (spread_u a c d HK) as Ku. fold K in Ku. pose proof u_pos as Pu.
    assert (T : Rabs t <= 24 * K * u) by (assert (u <= K * u) by nra; lra).
    split; [exact T|]. split; [apply Rabs_le_inv; lra|]. split; assumption.
  Qed.
  Lemma s_pos : 0 < sqrt D.
  Proof. apply sqrt_lt_R0, PD. Qed.
  Lemma em_eq : val e * val mass = sqrt D * (1 + t).
  Proof. rewrite Ve. field. lra. Qed.
  Lemma s_scaled : scaled 220 (sqrt D).
  Proof. apply scaled_sqrt; [lra|]. exact (d_scaled a c d Ua Ud PD HK). Qed.
  Lemma slightly r e' : scaled e' r -> scaled (e' + 1) (r * (1 + t)).
  Proof.
    destruct t_small as (_ & T & _). intros [-> |[L U]]; [left; ring|right]. rewrite Rabs_mult, (Rabs_right (1 + t)) by lra.
    rewrite Z.opp_add_distr, !bpow_plus. simpl (pow2 1). change (pow2 (- (1))) with (/ 2). pose proof (Rabs_pos r). pose proof (bpow_gt_0 radix2 (- e')). nra.
  Qed.
  Lemma em_scaled : scaled 221 (val e * val mass).
  Proof. rewrite em_eq. change 221%Z with (220 + 1)%Z. apply slightly, s_scaled. Qed.
  Lemma e_scaled : scaled 281 (val e).
  Proof.
    rewrite Ve. change 281%Z with (280 + 1)%Z. apply slightly. destruct (everyday_scaled mass Em) as (_ & S & N).
    change 280%Z with (220 + 60)%Z. apply scaled_mul; [exact s_scaled|now apply scaled_inv].
  Qed.
  Lemma e_not0 : val e <> 0.
  Proof. destruct t_small as (_ & T & _). rewrite Ve. pose proof s_pos. apply Rmult_integral_contrapositive_currified; [|lra].
    apply Rmult_integral_contrapositive_currified; [lra|]. apply Rinv_neq_0_compat. lra. Qed.

  Let em : b64 := fmul (fmul e mass) (b64_of_Z 1).
  Lemma em_like : fin em = true /\ like 1 (val e * val mass) (val em) /\ val em <> 0.
  Proof.
    destruct (everyday_scaled mass Em) as (Fm & S & N).
    destruct (mul_like e mass 0 0 _ _ 281 60 Fe Fm (like_refl _) (like_refl _) e_scaled S) as (F1 & K1); try lia. cbn [Nat.add] in K1.
    destruct (mul_one _ F1) as [F2 V2]. split; [exact F2|]. unfold em. rewrite V2. split; [exact K1|].
    destruct K1 as (h & H & ->). apply near_pos in H. pose proof e_not0. apply Rmult_integral_contrapositive_currified; [|lra].
    apply Rmult_integral_contrapositive_currified; lra.
  Qed.

  Lemma beta_like : exists y, div_py P em = inr y /\ fin (fmul (fadd fzero a) y) = true /\
    like 3 (val a * (val P / (val e * val mass))) (val (fmul (fadd fzero a) y)).
  Proof.
    destruct (usual_scaled a Ua) as [Fa Sa]. destruct (zero_plus a Fa) as [Fz Vz]. destruct (everyday_scaled P EP) as (Fp & Sp & Np).
    destruct em_like as (Fm & Km & Nm). unfold div_py.
    assert (feq em fzero = false) as -> by (destruct (feq em fzero) eqn:Q; [apply feq_zero in Q; [contradiction|exact Fm]|reflexivity]).
    eexists. split; [reflexivity|].
    assert (N : val e * val mass <> 0) by (apply Rmult_integral_contrapositive_currified; [exact e_not0|lra]).
    destruct (div_like P em 0 1 _ _ 60 221 Fp (like_refl _) Km N Sp em_scaled) as (F1 & K1 & S1); try lia. cbn [Nat.add] in K1.
    destruct (mul_like (fadd fzero a) (fdiv P em) 0 2 (val a) (val P / (val e * val mass)) 200 (60 + 221) Fz F1) as (F2 & K2); try lia; [rewrite Vz; apply like_refl|exact K1|exact Sa|exact S1|].
    split; [exact F2|exact K2].
  Qed.

  Lemma gamma_like : exists g y, div_py (fadd fzero d) (fmul P mass) = inr g /\ div_py g (fmul e (b64_of_Z 1)) = inr y /\ fin y = true /\
    like 4 (val d / (val P * val mass) / val e) (val y).
  Proof.
    destruct (usual_scaled d Ud) as [Fd Sd]. destruct (zero_plus d Fd) as [Fz Vz]. destruct (everyday_scaled P EP) as (Fp & Sp & Np).
    destruct (everyday_scaled mass Em) as (Fm & Sm & Nm). unfold div_py.
    destruct (mul_like P mass 0 0 _ _ 60 60 Fp Fm (like_refl _) (like_refl _) Sp Sm) as (F1 & K1); try lia. cbn [Nat.add] in K1.
    assert (N1 : val P * val mass <> 0) by (apply Rmult_integral_contrapositive_currified; assumption).
    assert (feq (fmul P mass) fzero = false) as ->.
    { destruct (feq (fmul P mass) fzero) eqn:Q; [|reflexivity]. apply feq_zero in Q; [|exact F1]. destruct K1 as (h & H & V). rewrite V in Q.
      apply near_pos in H. apply Rmult_integral in Q. destruct Q; [contradiction|lra]. }
    pose proof (scaled_mul _ _ _ _ Sp Sm) as S1.
    destruct (div_like (fadd fzero d) (fmul P mass) 0 1 (val d) (val P * val mass) 200 (60 + 60) Fz) as (F2 & K2 & S2); try lia; [rewrite Vz; apply like_refl|exact K1|exact N1|exact Sd|exact S1|]. cbn [Nat.add] in K2.
    destruct (mul_one e Fe) as [F3 V3].
    assert (feq (fmul e (b64_of_Z 1)) fzero = false) as ->.
    { destruct (feq (fmul e (b64_of_Z 1)) fzero) eqn:Q; [|reflexivity]. apply feq_zero in Q; [|exact F3]. rewrite V3 in Q. pose proof e_not0. contradiction. }
    destruct (div_like (fdiv (fadd fzero d) (fmul P mass)) (fmul e (b64_of_Z 1)) 2 0 (val d / (val P * val mass)) (val e) (200 + (60 + 60)) 281 F2 K2) as (F4 & K4 & _); try lia;
      [rewrite V3; apply like_refl|exact e_not0|exact S2|exact e_scaled|]. cbn [Nat.add] in K4.
    eexists _, _. split; [reflexivity|]. split; [reflexivity|]. split; [exact F4|]. apply (like_le 3); [lia|exact K4].
  Qed.

  Lemma alpha_like : exists y, div_py (fadd fzero c) em = inr y /\ fin (fopp y) = true /\
    like 2 (- (val c / (val e * val mass))) (val (fopp y)).
  Proof.
    destruct (usual_scaled c Uc) as [Fc Sc]. destruct (zero_plus c Fc) as [Fz Vz]. destruct em_like as (Fm & Km & Nm). unfold div_py.
    assert (feq em fzero = false) as -> by (destruct (feq em fzero) eqn:Q; [apply feq_zero in Q; [contradiction|exact Fm]|reflexivity]).
    eexists. split; [reflexivity|].
    assert (N : val e * val mass <> 0) by (apply Rmult_integral_contrapositive_currified; [exact e_not0|lra]).
    destruct (div_like (fadd fzero c) em 0 1 (val c) (val e * val mass) 200 221 Fz) as (F1 & K1 & S1); try lia; [rewrite Vz; apply like_refl|exact Km|exact N|exact Sc|exact em_scaled|]. cbn [Nat.add] in K1.
    split; [rewrite is_finite_Bopp; exact F1|]. rewrite B2R_Bopp. destruct K1 as (h & H & V). exists h. split; [exact H|]. rewrite V. ring.
  Qed.
End Twiss.
