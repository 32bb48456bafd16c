(** Double precision arithmetic: every operation has a relative error of at most 2^-53 as long as
    numbers are neither huge nor tiny; errors of sums and products. *)
From Coq Require Import Reals ZArith List Bool Lia Lra Psatz.
From Flocq Require Import Core BinarySingleNaN Plus_error Relative.
From Verif Require Import Num FloatModel MomentSpec.
Import ListNotations.
Open Scope R_scope.

Notation pow2 := (bpow radix2).
Notation val := (B2R (prec := prec64) (emax := emax64)).
Notation fin := (is_finite (prec := prec64) (emax := emax64)).
Notation rnd := (round radix2 (FLT_exp (SpecFloat.emin prec64 emax64) prec64) ZnearestE).

(** The unit roundoff. *)
Definition u : R := pow2 (-53).

Lemma u_pos : 0 < u. Proof. apply bpow_gt_0. Qed.
Lemma u_small : u <= / 1000. Proof. unfold u. simpl. lra. Qed.

Lemma rnd_bound x e : (-1000 <= e <= 1000)%Z -> Rabs x <= pow2 e -> Rabs (rnd x) < pow2 emax64.
Proof.
  intros He Hx. apply Rle_lt_trans with (pow2 e).
  - apply abs_round_le_generic; auto with typeclass_instances.
    apply generic_format_bpow. unfold FLT_exp, SpecFloat.emin, prec64, emax64. lia.
  - apply bpow_lt. unfold emax64. lia.
Qed.

Lemma rnd_plus (x y : b64) : exists d, Rabs d <= u /\ rnd (val x + val y) = (val x + val y) * (1 + d).
Proof.
  destruct (FLT_plus_error_N_ex radix2 (SpecFloat.emin prec64 emax64) prec64 (fun z => negb (Z.even z)) (val x) (val y)
             (generic_format_B2R _ _ x) (generic_format_B2R _ _ y)) as (d & Hd & E).
  exists d. split; [|exact E].
  assert (Hu : u_ro radix2 prec64 = u). { unfold u_ro, u. simpl. lra. }
  rewrite Hu in Hd. pose proof u_pos. apply Rle_trans with (1 := Hd).
  apply Rmult_le_reg_r with (1 + u); [lra|]. unfold Rdiv. rewrite Rmult_assoc, Rinv_l by lra. nra.
Qed.

Lemma rnd_normal x : x = 0 \/ pow2 (-1000) <= Rabs x -> exists d, Rabs d <= u /\ rnd x = x * (1 + d).
Proof.
  intros [-> |H].
  - exists 0. split; [rewrite Rabs_R0; left; apply u_pos|]. rewrite round_0; auto with typeclass_instances. lra.
  - destruct (relative_error_N_FLT_ex radix2 (SpecFloat.emin prec64 emax64) prec64 prec64_gt (fun z => negb (Z.even z)) x) as (d & Hd & E).
    + eapply Rle_trans; [|exact H]. apply bpow_le. unfold SpecFloat.emin, prec64, emax64. lia.
    + exists d. split; [|exact E]. eapply Rle_trans; [exact Hd|]. unfold u. simpl. lra.
Qed.

Lemma add_ok (x y : b64) : fin x = true -> fin y = true -> Rabs (val x + val y) <= pow2 1000 ->
  fin (Bplus mode_NE x y) = true /\
  exists d, Rabs d <= u /\ val (Bplus mode_NE x y) = (val x + val y) * (1 + d).
Proof.
  intros Fx Fy H. pose proof (Bplus_correct prec64 emax64 _ _ mode_NE x y Fx Fy) as C.
  rewrite Rlt_bool_true in C by (apply (rnd_bound _ 1000); [lia|exact H]).
  destruct C as (C1 & C2 & _). split; [exact C2|]. rewrite C1. apply rnd_plus.
Qed.

Lemma sub_ok (x y : b64) : fin x = true -> fin y = true -> Rabs (val x - val y) <= pow2 1000 ->
  fin (Bminus mode_NE x y) = true /\
  exists d, Rabs d <= u /\ val (Bminus mode_NE x y) = (val x - val y) * (1 + d).
Proof.
  intros Fx Fy H. pose proof (Bminus_correct prec64 emax64 _ _ mode_NE x y Fx Fy) as C.
  rewrite Rlt_bool_true in C by (apply (rnd_bound _ 1000); [lia|exact H]).
  destruct C as (C1 & C2 & _). split; [exact C2|]. rewrite C1.
  destruct (rnd_plus x (Bopp y)) as (d & Hd & E). rewrite B2R_Bopp in E. exists d. split; [exact Hd|]. exact E.
Qed.

Lemma mul_ok (x y : b64) : fin x = true -> fin y = true -> Rabs (val x * val y) <= pow2 1000 ->
  val x * val y = 0 \/ pow2 (-1000) <= Rabs (val x * val y) ->
  fin (Bmult mode_NE x y) = true /\
  exists d, Rabs d <= u /\ val (Bmult mode_NE x y) = (val x * val y) * (1 + d).
Proof.
  intros Fx Fy H L. pose proof (Bmult_correct prec64 emax64 _ _ mode_NE x y) as C.
  rewrite Rlt_bool_true in C by (apply (rnd_bound _ 1000); [lia|exact H]).
  destruct C as (C1 & C2 & _). rewrite Fx, Fy in C2. split; [exact C2|]. rewrite C1. apply rnd_normal, L.
Qed.

Lemma div_ok (x y : b64) : fin x = true -> val y <> 0 -> Rabs (val x / val y) <= pow2 1000 ->
  val x / val y = 0 \/ pow2 (-1000) <= Rabs (val x / val y) ->
  fin (Bdiv mode_NE x y) = true /\
  exists d, Rabs d <= u /\ val (Bdiv mode_NE x y) = (val x / val y) * (1 + d).
Proof.
  intros Fx Hy H L. pose proof (Bdiv_correct prec64 emax64 _ _ mode_NE x y Hy) as C.
  rewrite Rlt_bool_true in C by (apply (rnd_bound _ 1000); [lia|exact H]).
  destruct C as (C1 & C2 & _). rewrite Fx in C2. split; [exact C2|]. rewrite C1. apply rnd_normal, L.
Qed.

Lemma ofZ_ok z : (z <> 0)%Z -> Rabs (IZR z) <= pow2 1000 ->
  fin (b64_of_Z z) = true /\ exists d, Rabs d <= u /\ val (b64_of_Z z) = IZR z * (1 + d).
Proof.
  intros Hz H. unfold b64_of_Z.
  pose proof (binary_normalize_correct prec64 emax64 prec64_gt prec64_lt mode_NE z 0 false) as C. cbv zeta in C.
  assert (E : F2R (Float radix2 z 0) = IZR z) by (unfold F2R; simpl; lra). rewrite E in C.
  rewrite Rlt_bool_true in C by (apply (rnd_bound _ 1000); [lia|exact H]).
  destruct C as (C1 & C2 & _). split; [exact C2|]. rewrite C1. apply rnd_normal. right.
  apply Rle_trans with 1; [change 1 with (pow2 0); apply bpow_le; lia|].
  rewrite <- abs_IZR. apply IZR_le. lia.
Qed.

(** ---- products of factors 1 + d ---- *)
Definition near (n : nat) (x : R) : Prop := (1 - u) ^ n <= x <= / (1 - u) ^ n.

Lemma pow_u_pos n : 0 < (1 - u) ^ n.
Proof. apply pow_lt. pose proof u_small. lra. Qed.

Lemma near_pos n x : near n x -> 0 < x.
Proof. intros [H _]. pose proof (pow_u_pos n). lra. Qed.

Lemma near_one d : Rabs d <= u -> near 1 (1 + d).
Proof.
  intros H. apply Rabs_le_inv in H. pose proof u_pos. pose proof u_small. unfold near. rewrite pow_1. split; [lra|].
  apply Rmult_le_reg_r with (1 - u); [lra|]. rewrite Rinv_l by lra. nra.
Qed.

Lemma near_mul m n x y : near m x -> near n y -> near (m + n) (x * y).
Proof.
  intros Hx Hy. pose proof (near_pos _ _ Hx). pose proof (near_pos _ _ Hy).
  destruct Hx as [X1 X2], Hy as [Y1 Y2]. pose proof (pow_u_pos m). pose proof (pow_u_pos n).
  unfold near. rewrite pow_add, Rinv_mult. split; apply Rmult_le_compat; lra.
Qed.

Lemma near_inv n x : near n x -> near n (/ x).
Proof.
  intros Hx. pose proof (near_pos _ _ Hx). destruct Hx as [H1 H2]. pose proof (pow_u_pos n). split.
  - rewrite <- (Rinv_inv ((1 - u) ^ n)). apply Rinv_le_contravar; [lra|exact H2].
  - apply Rinv_le_contravar; lra.
Qed.

Lemma near_le m n x : (m <= n)%nat -> near m x -> near n x.
Proof.
  intros L [H1 H2]. pose proof (pow_u_pos m). pose proof (pow_u_pos n). pose proof u_pos. pose proof u_small.
  assert (P : (1 - u) ^ n <= (1 - u) ^ m).
  { replace n with (m + (n - m))%nat by lia. rewrite pow_add.
    assert ((1 - u) ^ (n - m) <= 1) by (apply Rle_trans with (1 ^ (n - m)); [apply pow_incr; split; lra|rewrite pow1; lra]).
    pose proof (pow_u_pos (n - m)). nra. }
  split; [lra|]. apply Rle_trans with (1 := H2). apply Rinv_le_contravar; lra.
Qed.

Lemma near_refl : near 0 1. Proof. unfold near. simpl. lra. Qed.

Lemma bernoulli n : 1 - INR n * u <= (1 - u) ^ n.
Proof.
  induction n as [|n IH]; [simpl; lra|]. rewrite S_INR. pose proof u_pos. pose proof u_small. pose proof (pos_INR n).
  simpl. destruct (Rle_dec 0 (1 - INR n * u)).
  - nra.
  - pose proof (pow_u_pos n). assert (0 <= (1 - u) * (1 - u) ^ n) by (apply Rmult_le_pos; lra).
    nra.
Qed.

(** Few factors are close to 1. *)
Lemma near_close n x : INR n * u <= / 2 -> near n x -> Rabs (x - 1) <= 2 * INR n * u.
Proof.
  intros L [H1 H2]. pose proof (bernoulli n) as B. pose proof u_pos. pose proof (pos_INR n).
  assert (P : 0 <= INR n * u) by (apply Rmult_le_pos; lra).
  assert (Q : / (1 - u) ^ n <= 1 + 2 * (INR n * u)).
  { apply Rle_trans with (/ (1 - INR n * u)); [apply Rinv_le_contravar; lra|].
    apply Rmult_le_reg_r with (1 - INR n * u); [lra|]. rewrite Rinv_l by lra. nra. }
  apply Rabs_le. lra.
Qed.

Lemma near_half n x : INR n * u <= / 2 -> near n x -> / 2 <= x <= 2.
Proof.
  intros L H. pose proof (near_pos _ _ H). destruct H as [H1 H2]. pose proof (bernoulli n).
  split; [lra|]. apply Rle_trans with (1 := H2). rewrite <- (Rinv_inv 2). apply Rinv_le_contravar; lra.
Qed.

(** ---- sums ---- *)
(** The terms [t] of a sum, each with a factor that is nearly 1. *)
Definition perturbed {A} (n : nat) (t : A -> R) (l : list A) (r : R) : Prop :=
  exists g, length g = length l /\ Forall (near n) g /\ r = rsum (fun p => t (fst p) * snd p) (combine l g).

Lemma perturbed_scale {A} m n (t : A -> R) l r c : perturbed n t l r -> near m c -> perturbed (m + n) t l (r * c).
Proof.
  intros (g & L & F & ->) Hc. exists (map (fun y => c * y) g). split; [rewrite map_length; exact L|]. split.
  - rewrite Forall_map. eapply Forall_impl; [|exact F]. intros y Hy. apply near_mul; assumption.
  - clear F. revert g L. induction l as [|a l IH]; intros [|y g] L; simpl in *; try discriminate; [lra|].
    rewrite <- IH by lia. lra.
Qed.

Lemma perturbed_le {A} m n (t : A -> R) l r : (m <= n)%nat -> perturbed m t l r -> perturbed n t l r.
Proof.
  intros L (g & E & F & ->). exists g. split; [exact E|]. split; [|reflexivity].
  eapply Forall_impl; [|exact F]. intros y. apply near_le, L.
Qed.

(** Terms that are themselves products. *)
Lemma perturbed_terms {A} m n (t s : A -> R) l r :
  (forall a, In a l -> exists h, near m h /\ s a = t a * h) -> perturbed n s l r -> perturbed (m + n) t l r.
Proof.
  intros H (g & E & F & ->). revert g E F. induction l as [|a l IH]; intros [|y g] E F; simpl in E; try discriminate.
  - exists []. simpl. auto.
  - inversion F as [|? ? Fy Fg]; subst. destruct (H a (or_introl eq_refl)) as (h & Hh & Eh).
    destruct (IH (fun b Hb => H b (or_intror Hb)) g ltac:(lia) Fg) as (g' & E' & F' & R').
    exists (h * y :: g'). split; [simpl; lia|]. split; [constructor; auto; apply near_mul; assumption|].
    simpl. rewrite R', Eh. lra.
Qed.

(** The error of such a sum. *)
Lemma perturbed_error {A} n (t : A -> R) l r : INR n * u <= / 2 -> perturbed n t l r ->
  Rabs (r - rsum t l) <= 2 * INR n * u * rsum (fun a => Rabs (t a)) l.
Proof.
  intros L (g & E & F & ->). revert g E F. induction l as [|a l IH]; intros [|y g] E F; simpl in E; try discriminate; simpl.
  - rewrite Rminus_0_r, Rabs_R0. lra.
  - inversion F as [|? ? Fy Fg]; subst. specialize (IH g ltac:(lia) Fg).
    pose proof (near_close n y L Fy) as C.
    replace (t a * y + rsum (fun p => t (fst p) * snd p) (combine l g) - (t a + rsum t l))
      with (t a * (y - 1) + (rsum (fun p => t (fst p) * snd p) (combine l g) - rsum t l)) by ring.
    eapply Rle_trans; [apply Rabs_triang|]. rewrite Rabs_mult. pose proof (Rabs_pos (t a)). nra.
Qed.

(** Sums of positive terms. *)
Lemma perturbed_pos {A} n (t : A -> R) l r : (forall a, In a l -> 0 <= t a) -> perturbed n t l r ->
  (1 - u) ^ n * rsum t l <= r <= / (1 - u) ^ n * rsum t l.
Proof.
  intros P (g & E & F & ->). revert g E F P. induction l as [|a l IH]; intros [|y g] E F P; simpl in E; try discriminate; simpl.
  - lra.
  - inversion F as [|? ? [F1 F2] Fg]; subst. specialize (IH g ltac:(lia) Fg (fun b Hb => P b (or_intror Hb))).
    pose proof (P a (or_introl eq_refl)). nra.
Qed.

Lemma sum_ok {A} (f : A -> b64) (B : R) : 0 <= B -> forall l (z : b64) m,
  fin z = true -> Rabs (val z) <= 2 * INR m * B ->
  (forall a, In a l -> fin (f a) = true /\ Rabs (val (f a)) <= B) ->
  INR (m + length l) * u <= / 4 -> 2 * INR (m + length l) * B <= pow2 1000 ->
  let r := fold_left (fun s a => Bplus mode_NE s (f a)) l z in
  fin r = true /\ Rabs (val r) <= 2 * INR (m + length l) * B /\
  exists g, near (length l) g /\ exists q, perturbed (length l) (fun a => val (f a)) l q /\ val r = val z * g + q.
Proof.
  intros HB. induction l as [|a l IH]; intros z m Fz Bz Hf L1 L2; simpl.
  - rewrite Nat.add_0_r. split; [exact Fz|]. split; [exact Bz|]. exists 1. split; [apply near_refl|].
    exists 0. split; [exists []; simpl; auto|lra].
  - destruct (Hf a (or_introl eq_refl)) as [Fa Ba]. simpl in L1, L2.
    replace (m + S (length l))%nat with (S m + length l)%nat in * by lia.
    pose proof (pos_INR m). pose proof (pos_INR (length l)). pose proof u_pos.
    rewrite plus_INR, S_INR in L1, L2.
    assert (S0 : Rabs (val z + val (f a)) <= (2 * INR m + 1) * B).
    { eapply Rle_trans; [apply Rabs_triang|]. lra. }
    destruct (add_ok z (f a) Fz Fa) as (Fs & d & Hd & Es).
    { eapply Rle_trans; [exact S0|]. eapply Rle_trans; [|exact L2]. nra. }
    apply Rabs_le_inv in Hd.
    destruct (IH (Bplus mode_NE z (f a)) (S m) Fs) as (Fr & Br & g & Hg & q & Hq & Er).
    + rewrite Es, Rabs_mult, S_INR. rewrite (Rabs_right (1 + d)) by (pose proof u_small; lra).
      apply Rle_trans with ((2 * INR m + 1) * B * (1 + u)).
      * apply Rmult_le_compat; [apply Rabs_pos|pose proof u_small; lra|exact S0|lra].
      * assert ((2 * INR m + 1) * u <= 1) by nra. nra.
    + intros b Hb. apply Hf. right. exact Hb.
    + rewrite plus_INR, S_INR. exact L1.
    + rewrite plus_INR, S_INR. exact L2.
    + split; [exact Fr|]. split; [exact Br|].
      assert (Hg1 : near (S (length l)) ((1 + d) * g)).
      { apply (near_mul 1 (length l)); [apply near_one, Rabs_le, Hd|exact Hg]. }
      exists ((1 + d) * g). split; [exact Hg1|].
      exists (val (f a) * ((1 + d) * g) + q). split.
      * apply (perturbed_le (length l) (S (length l))) in Hq; [|lia]. destruct Hq as (gl & El & Fl & ->).
        exists ((1 + d) * g :: gl). split; [simpl; lia|]. split; [constructor; assumption|]. reflexivity.
      * rewrite Er, Es. ring.
Qed.

(** ---- products ---- *)
(** Zero, or within 2^-e and 2^e. *)
Definition scaled (e : Z) (x : R) : Prop := x = 0 \/ pow2 (- e) <= Rabs x <= pow2 e.

Lemma scaled_mul e f x y : scaled e x -> scaled f y -> scaled (e + f) (x * y).
Proof.
  intros [-> |[X1 X2]]; [left; ring|]. intros [-> |[Y1 Y2]]; [left; ring|]. right.
  rewrite Rabs_mult. replace (- (e + f))%Z with (- e + - f)%Z by lia. rewrite !bpow_plus.
  pose proof (bpow_ge_0 radix2 (- e)). pose proof (bpow_ge_0 radix2 (- f)).
  split; apply Rmult_le_compat; try assumption; apply Rabs_pos.
Qed.

Lemma scaled_near e n x h : INR n * u <= / 2 -> scaled e x -> near n h -> scaled (e + 1) (x * h).
Proof.
  intros L Hx Hn. apply scaled_mul; [exact Hx|]. right. apply near_half in Hn; [|exact L].
  rewrite Rabs_right by lra. simpl. lra.
Qed.

Lemma scaled_le e f x : (e <= f)%Z -> scaled e x -> scaled f x.
Proof.
  intros L [-> |[X1 X2]]; [left; reflexivity|]. right.
  split; [eapply Rle_trans; [|exact X1]|eapply Rle_trans; [exact X2|]]; apply bpow_le; lia.
Qed.

Lemma prod_ok (ps : list (b64 * b64)) : forall (s : b64) a n e (R : Z),
  fin s = true -> (exists h, near n h /\ val s = a * h) -> scaled e a -> (0 <= e)%Z -> (0 <= R)%Z ->
  (forall p, In p ps -> fin (fst p) = true /\ fin (snd p) = true /\ scaled R (val (fst p) - val (snd p))) ->
  (e + R * Z.of_nat (length ps) <= 900)%Z -> INR (n + 2 * length ps) * u <= / 2 ->
  let r := fold_left (fun m p => Bmult mode_NE m (Bminus mode_NE (fst p) (snd p))) ps s in
  fin r = true /\ exists h, near (n + 2 * length ps) h /\
    val r = a * rprod (fun p => val (fst p) - val (snd p)) ps * h.
Proof.
  induction ps as [|[x y] ps IH]; intros s a n e R Fs (h & Hh & Es) Sa He HR Hp L1 L2; cbn zeta; simpl fold_left; simpl rprod.
  - split; [exact Fs|]. exists h. simpl length. replace (n + 2 * 0)%nat with n by lia. split; [exact Hh|]. rewrite Es. ring.
  - destruct (Hp _ (or_introl eq_refl)) as (Fx & Fy & Sd). simpl in Fx, Fy, Sd.
    simpl length in L1, L2. set (dev := val x - val y) in *.
    assert (L1' : (e + R + R * Z.of_nat (length ps) <= 900)%Z) by lia.
    assert (Ln : INR n * u <= / 2).
    { eapply Rle_trans; [|exact L2]. apply Rmult_le_compat_r; [left; apply u_pos|]. apply le_INR. lia. }
    assert (Hd1 : Rabs dev <= pow2 1000).
    { destruct Sd as [E0|[_ E0]]; [rewrite E0, Rabs_R0; apply bpow_ge_0|].
      eapply Rle_trans; [exact E0|]. apply bpow_le. nia. }
    destruct (sub_ok x y Fx Fy Hd1) as (Fd & d & Hd & Ed). fold dev in Ed.
    assert (S1 : scaled (e + 1 + (R + 1)) (val s * val (Bminus mode_NE x y))).
    { apply scaled_mul; [rewrite Es; apply (scaled_near e n); assumption|].
      rewrite Ed. apply (scaled_near R 1); [simpl; pose proof u_small; lra|exact Sd|apply near_one, Hd]. }
    apply (scaled_le _ 1000) in S1; [|nia].
    destruct (mul_ok s (Bminus mode_NE x y) Fs Fd) as (Fm & d2 & Hd2 & Em).
    { destruct S1 as [E0|[_ E0]]; [rewrite E0, Rabs_R0; apply bpow_ge_0|exact E0]. }
    { destruct S1 as [E0|[E0 _]]; [left; exact E0|right; exact E0]. }
    destruct (IH (Bmult mode_NE s (Bminus mode_NE x y)) (a * dev) (n + 2)%nat (e + R)%Z R Fm) as (Fr & h' & Hh' & Er).
    + exists (h * (1 + d) * (1 + d2)). split; [|rewrite Em, Ed, Es; ring].
      replace (n + 2)%nat with (n + 1 + 1)%nat by lia. apply near_mul; [apply near_mul|]; auto; apply near_one; assumption.
    + apply scaled_mul; assumption.
    + lia.
    + exact HR.
    + intros p Hq. apply Hp. right. exact Hq.
    + exact L1'.
    + eapply Rle_trans; [|exact L2]. right. f_equal. f_equal. simpl. lia.
    + split; [exact Fr|]. exists h'. split.
      * replace (n + 2 * length ((x, y) :: ps))%nat with (n + 2 + 2 * length ps)%nat by (simpl; lia). exact Hh'.
      * rewrite Er. unfold dev. ring.
Qed.
