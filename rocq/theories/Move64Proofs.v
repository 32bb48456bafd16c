From Coq Require Import Reals ZArith Bool String List Lia Lra Psatz.
From Flocq Require Import Core BinarySingleNaN.
From Verif Require Import Num HitcoreModel FloatModel MomentSpec FloatArith Bin64Model Bin64Spec Bin64Proofs
  Shell64Model Shell64Spec Shell64Proofs Move64Model.
Import ListNotations.
Open Scope R_scope.

Lemma floor_ok (x : b64) : fin x = true -> exists k, floor64 x = inr k /\ IZR k <= val x < IZR k + 1.
Proof.
  destruct x as [s|s| |s m e Hb]; intros F; try discriminate F.
  - exists 0%Z. split; [reflexivity|]. simpl. lra.
  - cbn [floor64]. set (z := if s then Zneg m else Zpos m).
    assert (E : val (B754_finite s m e Hb) = IZR z * pow2 e) by (unfold B2R, F2R; cbn [Fnum Fexp]; destruct s; reflexivity).
    rewrite E. destruct (Z.leb_spec 0 e) as [P|N].
    + exists (z * 2 ^ e)%Z. split; [reflexivity|]. rewrite mult_IZR. change 2%Z with (radix_val radix2). rewrite IZR_Zpower by exact P. lra.
    + exists (z / 2 ^ (- e))%Z. split; [reflexivity|].
      assert (D : (0 < 2 ^ (- e))%Z) by (apply Z.pow_pos_nonneg; lia).
      assert (B : IZR (2 ^ (- e)) * pow2 e = 1).
      { change 2%Z with (radix_val radix2). rewrite IZR_Zpower by lia. rewrite <- bpow_plus. replace (- e + e)%Z with 0%Z by lia. reflexivity. }
      pose proof (Z.mul_div_le z _ D) as L1. pose proof (Z.mul_succ_div_gt z _ D) as L2.
      apply IZR_le in L1. apply IZR_lt in L2. rewrite mult_IZR in L1, L2. rewrite succ_IZR in L2.
      pose proof (bpow_gt_0 radix2 e) as P. set (q := IZR (z / 2 ^ (- e))) in *. set (w := IZR (2 ^ (- e))) in *.
      assert (Q : q = w * q * pow2 e) by (transitivity (q * (w * pow2 e)); [rewrite B; ring|ring]).
      assert (Q' : q + 1 = w * (q + 1) * pow2 e) by (transitivity ((q + 1) * (w * pow2 e)); [rewrite B; ring|ring]).
      split; [rewrite Q at 1; apply Rmult_le_compat_r; lra|]. rewrite Q'. apply Rmult_lt_compat_r; lra.
Qed.

Lemma half_val : fin half64 = true /\ val half64 = / 2.
Proof.
  assert (E : B2SF half64 = SpecFloat.S754_finite false 4503599627370496 (-53)) by (vm_compute; reflexivity).
  split; [rewrite <- is_finite_SF_B2SF, E; reflexivity|]. rewrite <- SF2R_B2SF, E. unfold SF2R, F2R; cbn [Fnum Fexp cond_Zopp].
  simpl bpow. lra.
Qed.

Lemma sub_zero (x : b64) : fin x = true -> fsub x fzero = x.
Proof. destruct x as [[]|s| |s m e Hb]; intros F; try discriminate F; reflexivity. Qed.

Lemma mul_abs (x y : b64) : fin x = true -> fin y = true -> Rabs (val x * val y) <= pow2 1000 ->
  fin (fmul x y) = true /\ Rabs (val (fmul x y) - val x * val y) <= u * Rabs (val x * val y) + u.
Proof.
  intros Fx Fy H. pose proof u_pos as U.
  destruct (Rle_dec (pow2 (-1000)) (Rabs (val x * val y))) as [G|G].
  - destruct (mul_ok x y Fx Fy H (or_intror G)) as (F & d & D & E). split; [exact F|].
    replace (val (fmul x y) - val x * val y) with ((val x * val y) * d).
    2:{ etransitivity; [|symmetry; apply (f_equal (fun z => z - val x * val y) E)]. cbn beta. ring. }
    rewrite Rabs_mult. pose proof (Rmult_le_compat_l _ _ _ (Rabs_pos (val x * val y)) D). lra.
  - apply Rnot_le_lt in G. pose proof (Bmult_correct prec64 emax64 _ _ mode_NE x y) as C.
    rewrite Rlt_bool_true in C by (apply (rnd_bound _ 1000); [lia|exact H]).
    destruct C as (C1 & C2 & _). split; [rewrite C2, Fx, Fy; reflexivity|].
    assert (V : Rabs (val (fmul x y)) <= pow2 (-1000)).
    { rewrite C1. refine (abs_round_le_generic radix2 (FLT_exp (SpecFloat.emin prec64 emax64) prec64) ZnearestE _ _ _ (Rlt_le _ _ G)).
      apply generic_format_bpow. unfold FLT_exp, SpecFloat.emin, prec64, emax64. lia. }
    assert (T : pow2 (-1000) <= u / 2).
    { unfold u. replace (pow2 (-53) / 2) with (pow2 (-54)) by (simpl; lra). apply bpow_le. lia. }
    eapply Rle_trans; [apply Rabs_triang|]. rewrite Rabs_Ropp.
    pose proof (Rmult_le_pos _ _ (Rlt_le _ _ U) (Rabs_pos (val x * val y))). lra.
Qed.

Lemma fold_real T F t p np k q y : 0 < F -> Rabs T * F <= 2 ^ 40 ->
  Rabs (t - T) <= u * Rabs T -> Rabs (p - t * F) <= u * Rabs (t * F) + u ->
  Rabs (np - (p + / 2)) <= u * Rabs (p + / 2) -> k <= np < k + 1 ->
  Rabs (q - k / F) <= u * Rabs (k / F) -> Rabs (y - (t - q)) <= u * Rabs (t - q) ->
  Rabs k <= 2 ^ 42 /\
  Rabs (y - (T - k / F)) <= 4 * u * (Rabs T + / F) /\ Rabs y <= / (2 * F) + 4 * u * (Rabs T + / F).
Proof.
  intros PF HB Ht Hp Hn Hk Hq Hy. pose proof u_pos as U.
  set (B := Rabs T * F) in *. assert (B0 : 0 <= B) by (unfold B; pose proof (Rabs_pos T); nra).
  assert (Uv : u * 2 ^ 53 = 1) by (unfold u; simpl; lra).
  assert (UB : u * B <= / 8000) by (assert (u * B <= u * 2 ^ 40) by (apply Rmult_le_compat_l; lra); simpl in *; lra).
  assert (Us : u <= / 1000000) by (simpl in Uv; lra).
  set (w := u * B) in *. assert (W0 : 0 <= w) by (unfold w; nra).
  set (T1 := t * F) in *. set (Q := q * F).
  assert (A1 : Rabs (T1 - T * F) <= w).
  { unfold T1, w, B. replace (t * F - T * F) with ((t - T) * F) by ring. rewrite Rabs_mult, (Rabs_right F) by lra. nra. }
  assert (A2 : Rabs T1 <= B + w).
  { replace T1 with (T * F + (T1 - T * F)) by ring. eapply Rle_trans; [apply Rabs_triang|].
    replace (Rabs (T * F)) with B by (unfold B; rewrite Rabs_mult, (Rabs_right F) by lra; reflexivity). lra. }
  assert (A3 : u * Rabs T1 <= w + w / 1000).
  { apply Rle_trans with (u * (B + w)); [apply Rmult_le_compat_l; lra|]. rewrite Rmult_plus_distr_l. fold w.
    assert (u * w <= w / 1000) by nra. lra. }
  assert (A4 : Rabs (p - T1) <= w + w / 1000 + u) by lra.
  assert (A5 : Rabs (p + / 2) <= B + 3 * w + u + / 2).
  { replace (p + / 2) with ((p - T1) + T1 + / 2) by ring.
    eapply Rle_trans; [apply Rabs_triang|]. rewrite (Rabs_right (/ 2)) by lra.
    assert (Rabs (p - T1 + T1) <= Rabs (p - T1) + Rabs T1) by apply Rabs_triang. lra. }
  assert (A6 : u * Rabs (p + / 2) <= w + w / 1000 + 6 / 10 * u).
  { apply Rle_trans with (u * (B + 3 * w + u + / 2)); [apply Rmult_le_compat_l; lra|].
    replace (u * (B + 3 * w + u + / 2)) with (w + 3 * (u * w) + u * u + u / 2) by (unfold w; field).
    assert (u * w <= w / 10000) by nra. assert (u * u <= u / 100) by nra. lra. }
  assert (A7 : Rabs (np - (T1 + / 2)) <= 21 / 10 * w + 16 / 10 * u).
  { replace (np - (T1 + / 2)) with ((np - (p + / 2)) + (p - T1)) by ring. eapply Rle_trans; [apply Rabs_triang|]. lra. }
  apply Rabs_le_inv in A7.
  assert (A8 : Rabs (T1 - k) <= / 2 + 21 / 10 * w + 16 / 10 * u) by (apply Rabs_le; lra).
  assert (A9 : Rabs k <= B + w + / 2 + 21 / 10 * w + 16 / 10 * u).
  { replace k with (T1 - (T1 - k)) by ring. eapply Rle_trans; [apply Rabs_triang|]. rewrite Rabs_Ropp. lra. }
  assert (A10 : Rabs (Q - k) <= w + w / 100 + 6 / 10 * u).
  { replace (Q - k) with ((q - k / F) * F) by (unfold Q; field; lra). rewrite Rabs_mult, (Rabs_right F) by lra.
    apply Rle_trans with (u * Rabs (k / F) * F); [apply Rmult_le_compat_r; lra|].
    replace (u * Rabs (k / F) * F) with (u * Rabs k).
    2:{ unfold Rdiv. rewrite Rabs_mult, (Rabs_right (/ F)) by (apply Rle_ge, Rlt_le, Rinv_0_lt_compat, PF). field. lra. }
    apply Rle_trans with (u * (B + w + / 2 + 21 / 10 * w + 16 / 10 * u)); [apply Rmult_le_compat_l; lra|].
    replace (u * (B + w + / 2 + 21 / 10 * w + 16 / 10 * u)) with (w + 31 / 10 * (u * w) + u / 2 + 16 / 10 * (u * u)) by (unfold w; field).
    assert (u * w <= w / 10000) by nra. assert (u * u <= u / 100) by nra. lra. }
  assert (A11 : Rabs (T1 - Q) <= / 2 + 32 / 10 * w + 22 / 10 * u).
  { replace (T1 - Q) with ((T1 - k) - (Q - k)) by ring. eapply Rle_trans; [apply Rabs_triang|]. rewrite Rabs_Ropp. lra. }
  assert (A12 : Rabs (y * F - (T1 - Q)) <= 6 / 10 * u).
  { replace (y * F - (T1 - Q)) with ((y - (t - q)) * F) by (unfold T1, Q; ring). rewrite Rabs_mult, (Rabs_right F) by lra.
    apply Rle_trans with (u * Rabs (t - q) * F); [apply Rmult_le_compat_r; lra|].
    replace (u * Rabs (t - q) * F) with (u * Rabs (T1 - Q)).
    2:{ replace (T1 - Q) with ((t - q) * F) by (unfold T1, Q; ring). rewrite Rabs_mult, (Rabs_right F) by lra. ring. }
    replace (6 / 10 * u) with (u * (6 / 10)) by ring. apply Rmult_le_compat_l; lra. }
  split; [simpl in *; lra|].
  assert (Fi : / F * F = 1) by (field; lra).
  split.
  - apply Rmult_le_reg_r with F; [exact PF|]. replace (Rabs (y - (T - k / F)) * F) with (Rabs ((y - (T - k / F)) * F)) by (rewrite Rabs_mult, (Rabs_right F) by lra; reflexivity).
    replace ((y - (T - k / F)) * F) with ((y * F - (T1 - Q)) + (T1 - T * F) - (Q - k)) by (unfold T1, Q; field; lra).
    replace (4 * u * (Rabs T + / F) * F) with (4 * w + 4 * u) by (unfold w, B; field; lra).
    eapply Rle_trans; [apply Rabs_triang|]. rewrite Rabs_Ropp.
    assert (Rabs (y * F - (T1 - Q) + (T1 - T * F)) <= Rabs (y * F - (T1 - Q)) + Rabs (T1 - T * F)) by apply Rabs_triang. lra.
  - apply Rmult_le_reg_r with F; [exact PF|]. replace (Rabs y * F) with (Rabs (y * F)) by (rewrite Rabs_mult, (Rabs_right F) by lra; reflexivity).
    replace ((/ (2 * F) + 4 * u * (Rabs T + / F)) * F) with (/ 2 + (4 * w + 4 * u)).
    2:{ unfold w, B. field. lra. }
    replace (y * F) with ((y * F - (T1 - Q)) + (T1 - Q)) by ring. eapply Rle_trans; [apply Rabs_triang|]. lra.
Qed.

(** A frequency that divides safely. *)
Definition safe (f : b64) : Prop := fin f = true /\ pow2 (-250) <= val f <= pow2 250.

Lemma safe_pos f : safe f -> 0 < val f.
Proof. intros (_ & H & _). pose proof (bpow_gt_0 radix2 (-250)). lra. Qed.
Lemma safe_nz f : safe f -> feq f fzero = false.
Proof.
  intros S. pose proof (safe_pos f S) as P. destruct S as [F _]. rewrite (Beqb_correct _ _ f fzero F eq_refl).
  change (val fzero) with 0. apply Req_bool_false. lra.
Qed.

Lemma rel_err x y d : Rabs d <= u -> y = x * (1 + d) -> Rabs (y - x) <= u * Rabs x.
Proof. intros D ->. replace (x * (1 + d) - x) with (d * x) by ring. rewrite Rabs_mult. apply Rmult_le_compat_r; [apply Rabs_pos|exact D]. Qed.

Lemma period_ok off f v h : fin (fg h v) = true -> fin off = true -> safe f ->
  Rabs (val (fg h v) - val off) * val f <= 2 ^ 40 ->
  exists y k, period64 off f v h = (fs (fs h v (fsub (fg h v) off)) v y, None) /\ fin y = true /\
    Rabs (val y - (val (fg h v) - val off - IZR k / val f)) <= 4 * u * (Rabs (val (fg h v) - val off) + / val f) /\
    Rabs (val y) <= / (2 * val f) + 4 * u * (Rabs (val (fg h v) - val off) + / val f).
Proof.
  intros Ft Fo Sf HB. pose proof (safe_pos f Sf) as PF. pose proof (safe_nz f Sf) as NF. destruct Sf as (Ff & Lf & Uf).
  set (t0 := fg h v) in *. set (T := val t0 - val off) in *. pose proof u_pos as U.
  assert (Fi : / val f <= pow2 250).
  { rewrite <- (Rinv_inv (pow2 250)), <- bpow_opp. apply Rinv_le_contravar; [apply bpow_gt_0|exact Lf]. }
  assert (BT : Rabs T <= pow2 290).
  { replace (Rabs T) with (Rabs T * val f * / val f) by (field; lra).
    replace (pow2 290) with (2 ^ 40 * pow2 250) by (rewrite (pow_nat64 40), <- bpow_plus; reflexivity).
    apply Rmult_le_compat; [|left; now apply Rinv_0_lt_compat|exact HB|exact Fi]. pose proof (Rabs_pos T). nra. }
  destruct (sub_ok t0 off Ft Fo) as (F1 & d1 & D1 & E1).
  { apply Rle_trans with (pow2 290); [exact BT|apply bpow_le; lia]. }
  set (t := fsub t0 off) in *. pose proof (rel_err _ _ _ D1 E1) as H1. fold T in H1.
  assert (Hs : u <= / 1000) by apply u_small.
  assert (BX : Rabs (val t * val f) <= 2 ^ 41).
  { rewrite Rabs_mult, (Rabs_right (val f)) by lra.
    assert (Rabs (val t) <= 2 * Rabs T).
    { replace (val t) with (T + (val t - T)) by ring. eapply Rle_trans; [apply Rabs_triang|]. pose proof (Rabs_pos T). nra. }
    replace (2 ^ 41) with (2 * 2 ^ 40) by (simpl; ring). nra. }
  destruct (mul_abs t f F1 Ff) as (F2 & H2).
  { apply Rle_trans with (1 := BX). rewrite (pow_nat64 41). apply bpow_le. lia. }
  set (p := fmul t f) in *. destruct half_val as [Fh Vh].
  assert (Bp : Rabs (val p + val half64) <= pow2 1000).
  { rewrite Vh. apply Rle_trans with (2 ^ 43); [|rewrite (pow_nat64 43); apply bpow_le; lia].
    replace (val p + / 2) with ((val p - val t * val f) + val t * val f + / 2) by ring.
    eapply Rle_trans; [apply Rabs_triang|]. rewrite (Rabs_right (/ 2)) by lra.
    assert (Rabs (val p - val t * val f + val t * val f) <= Rabs (val p - val t * val f) + Rabs (val t * val f)) by apply Rabs_triang.
    assert (u * Rabs (val t * val f) <= / 1000 * 2 ^ 41) by (apply Rmult_le_compat; [lra|apply Rabs_pos|lra|exact BX]).
    simpl in *; lra. }
  destruct (add_ok p half64 F2 Fh Bp) as (F3 & d3 & D3 & E3). pose proof (rel_err _ _ _ D3 E3) as H3. rewrite Vh in H3.
  set (np := fadd p half64) in *. destruct (floor_ok np F3) as (k & Ek & Hk).
  assert (Bk : Rabs (IZR k) <= 2 ^ 42).
  { destruct (fold_real T (val f) (val t) (val p) (val np) (IZR k) (IZR k / val f) (val t - IZR k / val f) PF HB H1 H2 H3 Hk) as (K & _); [| |exact K].
    - unfold Rminus at 1. rewrite Rplus_opp_r, Rabs_R0. apply Rmult_le_pos; [lra|apply Rabs_pos].
    - unfold Rminus at 1. rewrite Rplus_opp_r, Rabs_R0. apply Rmult_le_pos; [lra|apply Rabs_pos]. }
  assert (Zk : (Z.abs k <= 2 ^ 53)%Z).
  { apply le_IZR. rewrite abs_IZR. apply Rle_trans with (1 := Bk). rewrite (pow_nat64 42). change 2%Z with (radix_val radix2).
    rewrite IZR_Zpower by lia. apply bpow_le. lia. }
  destruct (ofZ_exact k Zk) as [F4 V4].
  assert (Bq : Rabs (val (b64_of_Z k) / val f) <= pow2 292).
  { rewrite V4. unfold Rdiv. rewrite Rabs_mult, (Rabs_right (/ val f)) by (apply Rle_ge, Rlt_le, Rinv_0_lt_compat, PF).
    replace (pow2 292) with (2 ^ 42 * pow2 250) by (rewrite (pow_nat64 42), <- bpow_plus; reflexivity).
    apply Rmult_le_compat; [apply Rabs_pos|left; now apply Rinv_0_lt_compat|exact Bk|exact Fi]. }
  destruct (div_ok (b64_of_Z k) f F4) as (F5 & d5 & D5 & E5).
  { lra. }
  { apply Rle_trans with (1 := Bq). apply bpow_le. lia. }
  { rewrite V4. destruct (Z.eq_dec k 0) as [-> |Nk]; [left; unfold Rdiv; ring|right].
    unfold Rdiv. rewrite Rabs_mult, (Rabs_right (/ val f)) by (apply Rle_ge, Rlt_le, Rinv_0_lt_compat, PF).
    apply Rle_trans with (1 * pow2 (-250)).
    - rewrite Rmult_1_l. apply bpow_le. lia.
    - apply Rmult_le_compat; [lra|apply bpow_ge_0| |].
      + rewrite <- abs_IZR. apply IZR_le. lia.
      + change (pow2 (-250)) with (pow2 (- (250))). rewrite bpow_opp. apply Rinv_le_contravar; lra. }
  set (q := fdiv (b64_of_Z k) f) in *. rewrite V4 in E5. pose proof (rel_err _ _ _ D5 E5) as H5.
  assert (By : Rabs (val t - val q) <= pow2 1000).
  { eapply Rle_trans; [apply Rabs_triang|]. rewrite Rabs_Ropp.
    assert (Rabs (val t) <= pow2 291).
    { replace (val t) with (T + (val t - T)) by ring. eapply Rle_trans; [apply Rabs_triang|].
      replace (pow2 291) with (2 * pow2 290) by (change 2 with (pow2 1); rewrite <- bpow_plus; reflexivity). pose proof (Rabs_pos T). nra. }
    assert (Rabs (val q) <= pow2 293).
    { replace (val q) with (IZR k / val f + (val q - IZR k / val f)) by ring. eapply Rle_trans; [apply Rabs_triang|].
      rewrite V4 in Bq. replace (pow2 293) with (2 * pow2 292) by (change 2 with (pow2 1); rewrite <- bpow_plus; reflexivity).
      pose proof (Rabs_pos (IZR k / val f)). nra. }
    assert (pow2 291 <= pow2 998) by (apply bpow_le; lia). assert (pow2 293 <= pow2 998) by (apply bpow_le; lia).
    replace (pow2 1000) with (4 * pow2 998) by (change 4 with (pow2 2); rewrite <- bpow_plus; reflexivity).
    pose proof (bpow_ge_0 radix2 998). lra. }
  destruct (sub_ok t q F1 F5 By) as (F6 & d6 & D6 & E6). pose proof (rel_err _ _ _ D6 E6) as H6.
  exists (fsub t q), k. split; [|split; [exact F6|]].
  - unfold period64. rewrite !fs_same. fold t0. fold t. fold p. fold np.
    match goal with |- context [floor64 ?a] => replace (floor64 a) with (@inr MErr Z k) by (symmetry; exact Ek) end.
    rewrite NF. reflexivity.
  - apply (fold_real T (val f) (val t) (val p) (val np) (IZR k) (val q) (val (fsub t q)) PF HB H1 H2 H3 Hk H5 H6).
Qed.

(** Well within the period nothing changes. *)
Lemma period_again f v h : fin (fg h v) = true -> safe f -> Rabs (val (fg h v)) * val f <= / 2 - / 2 ^ 50 ->
  exists h', period64 fzero f v h = (h', None) /\ (forall w, fg h' w = fg h w) /\ h_int (N := B64Num) h' = h_int (N := B64Num) h.
Proof.
  intros Fy Sf HB. pose proof (safe_pos f Sf) as PF. pose proof (safe_nz f Sf) as NF. pose proof Sf as (Ff & Lf & Uf).
  set (y := fg h v) in *. pose proof u_pos as U.
  assert (Uv : u * 2 ^ 53 = 1) by (unfold u; simpl; lra).
  assert (E50 : / 2 ^ 50 = 8 * u) by (simpl in *; lra).
  assert (X : Rabs (val y * val f) <= / 2 - 8 * u) by (rewrite Rabs_mult, (Rabs_right (val f)) by lra; lra).
  destruct (mul_abs y f Fy Ff) as (F2 & H2).
  { apply Rle_trans with (pow2 0); [simpl pow2; lra|apply bpow_le; lia]. }
  set (p := fmul y f) in *. destruct half_val as [Fh Vh].
  assert (P : Rabs (val p) <= / 2 - 6 * u).
  { replace (val p) with ((val p - val y * val f) + val y * val f) by ring. eapply Rle_trans; [apply Rabs_triang|].
    assert (u * Rabs (val y * val f) <= u * / 2) by (apply Rmult_le_compat_l; lra). lra. }
  apply Rabs_le_inv in P.
  destruct (add_ok p half64 F2 Fh) as (F3 & d3 & D3 & E3).
  { rewrite Vh. apply Rabs_le. assert (1 <= pow2 1000) by (change 1 with (pow2 0); apply bpow_le; lia). lra. }
  rewrite Vh in E3. apply Rabs_le_inv in D3. set (np := fadd p half64) in *.
  assert (N : 0 <= val np < 1) by (rewrite E3; pose proof u_small; split; nra).
  destruct (floor_ok np F3) as (k & Ek & Hk).
  assert (k = 0%Z) as ->.
  { assert (Q1 : IZR k < 1) by lra. assert (Q2 : -1 < IZR k) by lra. apply lt_IZR in Q1. change (-1) with (IZR (-1)) in Q2. apply lt_IZR in Q2. lia. }
  assert (Q : fdiv (b64_of_Z 0) f = fzero).
  { change (b64_of_Z 0) with fzero. destruct f as [s|s| |s m e Hb]; try discriminate Ff.
    - simpl in PF. lra.
    - destruct s; [|reflexivity]. exfalso. simpl in PF. unfold F2R in PF. cbn [Fnum Fexp] in PF.
      pose proof (bpow_gt_0 radix2 e). assert (IZR (Zneg m) < 0) by (apply IZR_lt; reflexivity).
      change (IZR (cond_Zopp true (Zpos m))) with (IZR (Zneg m)) in PF. nra. }
  exists (fs (fs h v y) v y). split; [|split; [|reflexivity]].
  - unfold period64. rewrite !fs_same. fold y. rewrite (sub_zero y Fy). fold p. fold np.
    match goal with |- context [floor64 ?a] => replace (floor64 a) with (@inr MErr Z 0%Z) by (symmetry; exact Ek) end.
    rewrite NF, Q. rewrite (sub_zero y Fy). reflexivity.
  - intros w. destruct (dblvar_eq_dec v w) as [<-|Nw]; [apply fs_same|]. now rewrite !fs_other by exact Nw.
Qed.

(** ---- sums of doubles are not tiny ------------------------------------------------ *)
Lemma multiple (x : b64) e : (-900 <= e)%Z -> fin x = true -> val x = 0 \/ pow2 e <= Rabs (val x) -> exists m, val x = IZR m * pow2 (e - 53).
Proof.
  intros E F [Z|H]; [exists 0%Z; rewrite Z; ring|].
  pose proof (generic_format_B2R prec64 emax64 x) as G. unfold generic_format in G.
  set (c := cexp radix2 (FLT_exp (SpecFloat.emin prec64 emax64) prec64) (val x)) in *.
  set (m := Ztrunc (scaled_mantissa radix2 (SpecFloat.fexp prec64 emax64) (val x))) in *.
  assert (Cc : (e - 53 <= c)%Z).
  { assert (K1 : (e < mag radix2 (val x))%Z) by (apply mag_gt_bpow; exact H).
    assert (K2 : (mag radix2 (val x) - 53 <= c)%Z) by exact (Z.le_max_l _ _). lia. }
  exists (m * 2 ^ (c - (e - 53)))%Z. rewrite mult_IZR. change 2%Z with (radix_val radix2). rewrite IZR_Zpower by lia.
  rewrite Rmult_assoc, <- bpow_plus. replace (c - (e - 53) + (e - 53))%Z with c by lia. exact G.
Qed.
Lemma sum_scaled (x y : b64) : fin x = true -> fin y = true -> scaled 200 (val x) -> scaled 200 (val y) -> scaled 253 (val x + val y).
Proof.
  intros Fx Fy Sx Sy.
  destruct (multiple x (-200)) as [m M]; [lia|exact Fx|destruct Sx as [?|[? _]]; [now left|now right]|].
  destruct (multiple y (-200)) as [k K]; [lia|exact Fy|destruct Sy as [?|[? _]]; [now left|now right]|].
  pose proof (scaled_abs 200 _ ltac:(lia) Sx) as Ax. pose proof (scaled_abs 200 _ ltac:(lia) Sy) as Ay.
  destruct (Z.eq_dec (m + k) 0) as [Z|N].
  - left. rewrite M, K, <- Rmult_plus_distr_r, <- plus_IZR, Z. ring.
  - right. split.
    + rewrite M, K, <- Rmult_plus_distr_r, <- plus_IZR, Rabs_mult. rewrite (Rabs_right (pow2 (-200 - 53))) by (apply Rle_ge, bpow_ge_0).
      change (-200 - 53)%Z with (-253)%Z. change (- (253))%Z with (-253)%Z. rewrite <- (Rmult_1_l (pow2 (-253))) at 1.
      apply Rmult_le_compat_r; [apply bpow_ge_0|]. rewrite <- abs_IZR. apply IZR_le. lia.
    + eapply Rle_trans; [apply Rabs_triang|]. apply Rle_trans with (pow2 201); [|apply bpow_le; lia].
      change 201%Z with (1 + 200)%Z. rewrite bpow_plus. simpl (pow2 1). lra.
Qed.

Lemma move_other d h v : ~ In v (map fst d) -> fg (move64 d h) v = fg h v.
Proof.
  revert h. induction d as [|[k a] r IH]; intros h N; [reflexivity|]. cbn [move64 map fst] in *.
  rewrite IH by (intros J; apply N; now right). apply fs_other. intros ->. apply N. now left.
Qed.
Lemma move_at d h v a : NoDup (map fst d) -> In (v, a) d -> fg (move64 d h) v = fadd a (fg h v).
Proof.
  revert h. induction d as [|[k b] r IH]; intros h N I; [destruct I|]. cbn [move64 map fst] in *. inversion N as [|? ? N1 N2]; subst.
  destruct I as [E|I].
  - injection E as -> ->. rewrite move_other by exact N1. apply fs_same.
  - assert (k <> v) by (intros ->; apply N1; apply (in_map fst) in I; exact I).
    rewrite IH by assumption. now rewrite fs_other.
Qed.
Lemma move_int d h : h_int (N := B64Num) (move64 d h) = h_int (N := B64Num) h.
Proof. revert h. induction d as [|[k a] r IH]; intros h; [reflexivity|]. cbn [move64]. rewrite IH. reflexivity. Qed.
