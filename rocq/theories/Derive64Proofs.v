From Coq Require Import Reals ZArith Bool String List Lia Lra Psatz.
From Flocq Require Import Core BinarySingleNaN.
From Verif Require Import Num HitcoreModel FloatModel MomentSpec FloatArith Bin64Model Bin64Spec Bin64Proofs
  Shell64Model Shell64Spec Shell64Proofs Shell64Props File64Model File64Proofs Move64Proofs Derive64Model Derive64Spec.
Import ListNotations.
Open Scope R_scope.

Section Lib.
  Variable L : PowLib.
  Hypothesis A : accurate L.

  Lemma sum_sq_like (a b : b64) : fin a = true -> fin b = true -> scaled 300 (val a) -> scaled 300 (val b) ->
    exists s, sum_sq L a b = inr s /\ fin s = true /\ like 6 (val a * val a + val b * val b) (val s) /\
      scaled 601 (val a * val a + val b * val b).
  Proof.
    intros Fx Fy Sx Sy.
    destruct (two_like L A a 0 (val a) 300 Fx (like_refl _) Sx) as [Fx2 Lx]; [lia|lia|].
    destruct (two_like L A b 0 (val b) 300 Fy (like_refl _) Sy) as [Fy2 Ly]; [lia|lia|].
    pose proof (scaled_sq _ _ Sx) as Qx. pose proof (scaled_sq _ _ Sy) as Qy.
    change (300 + 300)%Z with 600%Z in *. cbn [Nat.add] in *.
    unfold sum_sq. rewrite !py_pow_ok by assumption.
    destruct (add_like _ _ 5 _ _ 600 Fx2 Fy2 (sq_nonneg _) (sq_nonneg _) Lx Ly) as [F1 L1];
      [apply scaled_abs; [lia|exact Qx]|apply scaled_abs; [lia|exact Qy]|lia|lia|].
    pose proof (scaled_sum 600 _ _ ltac:(lia) (sq_nonneg _) (sq_nonneg _) Qx Qy) as Q1.
    eexists. split; [reflexivity|]. split; [exact F1|]. split; [exact L1|exact Q1].
  Qed.

  Lemma sum_nonneg x y : 0 <= x * x + y * y.
  Proof. pose proof (sq_nonneg x). pose proof (sq_nonneg y). lra. Qed.

  Lemma hypot_like (a b : b64) : fin a = true -> fin b = true -> scaled 300 (val a) -> scaled 300 (val b) ->
    exists s, hypot64 L a b = inr s /\ fin s = true /\ like 11 (sqrt (val a * val a + val b * val b)) (val s).
  Proof.
    intros Fa Fb Sa Sb. destruct (sum_sq_like a b Fa Fb Sa Sb) as (s & E & F & K & S). unfold hypot64. rewrite E.
    destruct (half_like L A s 6 _ 601 F (sum_nonneg _ _) K S) as [F3 L3]; [lia|lia|].
    eexists. split; [apply py_pow_ok; exact F3|]. split; [exact F3|exact L3].
  Qed.

  Lemma norm_like (a b c : b64) : fin a = true -> fin b = true -> fin c = true -> scaled 300 (val a) -> scaled 300 (val b) ->
    scaled 300 (val c) ->
    exists s, norm64 L a b c = inr s /\ fin s = true /\ like 12 (sqrt (val a * val a + val b * val b + val c * val c)) (val s).
  Proof.
    intros Fa Fb Fc Sa Sb Sc. destruct (sum_sq_like a b Fa Fb Sa Sb) as (s & E & F & K & S). unfold norm64. rewrite E.
    destruct (two_like L A c 0 (val c) 300 Fc (like_refl _) Sc) as [Fz2 Lz]; [lia|lia|].
    pose proof (scaled_sq _ _ Sc) as Qz. change (300 + 300)%Z with 600%Z in *. cbn [Nat.add] in *. rewrite py_pow_ok by assumption.
    apply (scaled_le 600 601) in Qz; [|lia].
    destruct (add_like _ _ 6 _ _ 601 F Fz2 (sum_nonneg _ _) (sq_nonneg _) K (like_le 5 6 _ _ ltac:(lia) Lz)) as [F2 L2];
      [apply scaled_abs; [lia|exact S]|apply scaled_abs; [lia|exact Qz]|lia|lia|].
    pose proof (scaled_sum 601 _ _ ltac:(lia) (sum_nonneg _ _) (sq_nonneg _) S Qz) as Q2.
    destruct (half_like L A _ 7 _ 602 F2 (Rplus_le_le_0_compat _ _ (sum_nonneg _ _) (sq_nonneg _)) L2 Q2) as [F3 L3]; [lia|lia|].
    eexists. split; [apply py_pow_ok; exact F3|]. split; [exact F3|exact L3].
  Qed.
End Lib.

Lemma like_right n c y r : (n <= 1000)%nat -> 2 * INR n <= c -> fin y = true -> like n r (val y) -> right c y r.
Proof.
  intros N C F K. split; [exact F|]. apply like_error in K; [|now apply small_n]. rewrite pow_m53. pose proof u_pos.
  eapply Rle_trans; [exact K|]. apply Rmult_le_compat_r; [apply Rabs_pos|]. apply Rmult_le_compat_r; lra.
Qed.

Lemma c_light_like : fin c_light64 = true /\ like 1 (299792458 / 1000000) (val c_light64) /\ scaled 40 (299792458 / 1000000).
Proof.
  destruct (ofZ_exact 299792458 ltac:(lia)) as [Fa Va]. destruct (ofZ_exact 1000000 ltac:(lia)) as [Fb Vb].
  assert (S1 : scaled 30 299792458) by (right; rewrite Rabs_right by lra; split; [apply Rle_trans with (pow2 0); [apply bpow_le; lia|simpl; lra]|simpl; lra]).
  assert (S2 : scaled 20 1000000) by (right; rewrite Rabs_right by lra; split; [apply Rle_trans with (pow2 0); [apply bpow_le; lia|simpl; lra]|simpl; lra]).
  destruct (div_like (b64_of_Z 299792458) (b64_of_Z 1000000) 0 0 299792458 1000000 30 20 Fa) as (F & K & S); try lia; try lra; try assumption.
  { rewrite Va. apply like_refl. }
  { rewrite Vb. apply like_refl. }
  split; [exact F|]. split; [exact K|]. right. rewrite Rabs_right by lra. split.
  - apply Rle_trans with (pow2 0); [apply bpow_le; lia|simpl; lra].
  - apply Rle_trans with (pow2 9); [simpl; lra|apply bpow_le; lia].
Qed.

Lemma feq_zero (x : b64) : fin x = true -> feq x fzero = true <-> val x = 0.
Proof.
  intros F. rewrite (Beqb_correct _ _ x fzero F eq_refl). change (val fzero) with 0. unfold Req_bool.
  destruct (Rcompare_spec (val x) 0); split; intros; try discriminate; try lra; reflexivity.
Qed.

Lemma opp_fin (x : b64) : fin x = true -> fin (fopp x) = true.
Proof. intros F. exact (eq_trans (is_finite_Bopp _ _ x) F). Qed.
Lemma opp_val (x : b64) : val (fopp x) = - val x.
Proof. apply B2R_Bopp. Qed.
Lemma scaled_opp e r : scaled e r -> scaled e (- r).
Proof. intros [-> |H]; [left; ring|right; now rewrite Rabs_Ropp]. Qed.
Lemma abs_val (x : b64) : val (fabs x) = Rabs (val x).
Proof. apply B2R_Babs. Qed.
Lemma tiny_val : fin tiny = true /\ 0 < val tiny < / 100000000.
Proof.
  assert (E : exists m e, B2SF tiny = SpecFloat.S754_finite false m e /\ 0 < IZR (Zpos m) * pow2 e < / 100000000 /\ is_finite_SF (B2SF tiny) = true).
  { eexists; eexists. split; [vm_compute; reflexivity|]. split; [|vm_compute; reflexivity]. simpl bpow. lra. }
  destruct E as (m & e & E & I & F). split.
  - transitivity (is_finite_SF (B2SF tiny)); [symmetry; apply is_finite_SF_B2SF|exact F].
  - replace (val tiny) with (IZR (Zpos m) * pow2 e); [exact I|]. transitivity (SF2R radix2 (B2SF tiny)); [rewrite E; reflexivity|apply SF2R_B2SF].
Qed.
(** Multiplying by -1 changes the sign. *)
Lemma mul_m1 (x : b64) : fin x = true -> scaled 900 (val x) -> fin (fmul x (b64_of_Z (-1))) = true /\ val (fmul x (b64_of_Z (-1))) = - val x.
Proof.
  intros F S. destruct (ofZ_exact (-1) ltac:(lia)) as [F1 V1].
  pose proof (Bmult_correct prec64 emax64 _ _ mode_NE x (b64_of_Z (-1))) as C.
  assert (E : B2R x * B2R (b64_of_Z (-1)) = - val x) by (change (val x * val (b64_of_Z (-1)) = - val x); rewrite V1; ring).
  rewrite Rlt_bool_true in C.
  2:{ apply (rnd_bound _ 900); [lia|]. rewrite E, Rabs_Ropp. apply scaled_abs; [lia|exact S]. }
  destruct C as (C1 & C2 & _). split; [exact (eq_trans C2 ltac:(rewrite F; exact F1))|].
  rewrite C1. rewrite E. rewrite <- opp_val. apply round_generic; auto with typeclass_instances. apply generic_format_B2R.
Qed.
