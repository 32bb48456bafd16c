From Coq Require Import Reals ZArith Bool String List Lia Lra Psatz.
From Flocq Require Import Core BinarySingleNaN.
From Verif Require Import Num HitcoreModel FloatModel MomentSpec FloatArith Bin64Model Bin64Spec Bin64Proofs Shell64Model Shell64Spec.
Import ListNotations.
Open Scope R_scope.

Lemma pow_nat64 k : 2 ^ k = pow2 (Z.of_nat k).
Proof. rewrite bpow_powerRZ. change (IZR radix2) with 2. now rewrite <- pow_powerRZ. Qed.
Lemma pow_inv64 k : / 2 ^ k = pow2 (- Z.of_nat k).
Proof. rewrite pow_nat64. now rewrite bpow_opp. Qed.

Lemma moderate_scaled x : moderate x <-> fin x = true /\ scaled 300 (val x).
Proof.
  unfold moderate, scaled. rewrite pow_nat64, <- bpow_opp. change (- Z.of_nat 300)%Z with (-300)%Z.
  change (Z.of_nat 300) with 300%Z. reflexivity.
Qed.

Lemma within_scaled e r : 0 <= r -> (within e r <-> scaled (Z.of_nat e) r).
Proof.
  intros P. unfold within, scaled. rewrite pow_inv64, pow_nat64, Rabs_right by lra. reflexivity.
Qed.

(** near from a relative error of four units. *)
Lemma near_rel x : Rabs (x - 1) <= 4 * u -> near 5 x.
Proof.
  intros H. apply Rabs_le_inv in H. pose proof u_pos. pose proof u_small. unfold near. split.
  - assert ((1 - u) ^ 5 <= 1 - 4 * u); [|lra].
    replace ((1 - u) ^ 5) with (1 - 5 * u + 10 * u ^ 2 - 10 * u ^ 3 + 5 * u ^ 4 - u ^ 5) by ring.
    assert (0 <= u ^ 2 <= u / 1000) by (simpl; nra).
    assert (0 <= u ^ 3) by (apply pow_le; lra). assert (0 <= u ^ 5) by (apply pow_le; lra).
    assert (u ^ 4 <= u / 1000). { replace (u ^ 4) with (u ^ 2 * u ^ 2) by ring. nra. }
    lra.
  - assert (P : 0 < (1 - u) ^ 5) by apply pow_u_pos.
    apply Rmult_le_reg_r with ((1 - u) ^ 5); [exact P|]. rewrite Rinv_l by lra.
    apply Rle_trans with ((1 + 4 * u) * (1 - u) ^ 5); [apply Rmult_le_compat_r; lra|].
    assert (B : (1 - u) ^ 5 <= 1 - 5 * u + 10 * u ^ 2 + u ^ 2).
    { replace ((1 - u) ^ 5) with (1 - 5 * u + 10 * u ^ 2 - 10 * u ^ 3 + 5 * u ^ 4 - u ^ 5) by ring.
      assert (0 <= u ^ 3) by (apply pow_le; lra). assert (0 <= u ^ 5) by (apply pow_le; lra).
      assert (5 * u ^ 4 <= u ^ 2). { replace (u ^ 4) with (u ^ 2 * u ^ 2) by ring. assert (0 <= u ^ 2 <= / 1000) by (simpl; nra). nra. }
      lra. }
    apply Rle_trans with ((1 + 4 * u) * (1 - 5 * u + 10 * u ^ 2 + u ^ 2)); [apply Rmult_le_compat_l; lra|].
    assert (0 <= u ^ 2 <= u / 1000) by (simpl; nra). nra.
Qed.

Lemma right_near f g x : right_to f g x -> 0 <= g (val x) -> fin (f x) = true /\ exists h, near 5 h /\ val (f x) = g (val x) * h.
Proof.
  intros [F H] P. split; [exact F|].
  assert (U : / 2 ^ 51 = 4 * u). { rewrite pow_inv64. unfold u. change 4 with (pow2 2). rewrite <- bpow_plus. reflexivity. }
  rewrite U in H. destruct (Req_dec (g (val x)) 0) as [Z|Z].
  - rewrite Z in *. rewrite Rmult_0_r, Rminus_0_r in H. exists 1. split.
    + apply near_rel. rewrite Rminus_diag_eq, Rabs_R0 by reflexivity. pose proof u_pos. lra.
    + pose proof (Rabs_pos (val (f x))). assert (E : Rabs (val (f x)) = 0) by lra.
      destruct (Req_dec (val (f x)) 0) as [-> |N]; [ring|]. apply Rabs_no_R0 in N. lra.
  - assert (Pg : 0 < g (val x)) by lra. exists (val (f x) / g (val x)). split; [|field; lra].
    apply near_rel. replace (val (f x) / g (val x) - 1) with ((val (f x) - g (val x)) / g (val x)) by (field; lra).
    unfold Rdiv. rewrite Rabs_mult, Rabs_inv, (Rabs_right (g (val x))) by lra.
    apply Rmult_le_reg_r with (g (val x)); [exact Pg|]. rewrite Rmult_assoc, Rinv_l by lra. lra.
Qed.

(** A mean of factors. *)
Lemma near_sum n a b f g : 0 <= a -> 0 <= b -> near n f -> near n g -> exists h, near n h /\ a * f + b * g = (a + b) * h.
Proof.
  intros A B [F1 F2] [G1 G2]. destruct (Req_dec (a + b) 0) as [E|E].
  - exists f. split; [split; assumption|]. assert (a = 0) by lra. assert (b = 0) by lra. subst. ring.
  - exists ((a * f + b * g) / (a + b)). split; [|field; exact E]. assert (P : 0 < a + b) by lra. split.
    + apply Rmult_le_reg_r with (a + b); [exact P|]. unfold Rdiv. rewrite Rmult_assoc, Rinv_l by lra. nra.
    + apply Rmult_le_reg_r with (a + b); [exact P|]. unfold Rdiv. rewrite Rmult_assoc, Rinv_l by lra. nra.
Qed.

Lemma near_sqrt n f : near n f -> near n (sqrt f).
Proof.
  intros H. pose proof (near_pos n f H) as P. destruct H as [F1 F2]. pose proof (pow_u_pos n) as Q.
  assert (Q1 : (1 - u) ^ n <= 1).
  { clear. pose proof u_pos. pose proof u_small. induction n as [|n IH]; [simpl; lra|]. simpl. pose proof (pow_u_pos n). nra. }
  pose proof (sqrt_lt_R0 f P) as S. pose proof (sqrt_sqrt f ltac:(lra)) as E. split.
  - destruct (Rle_dec ((1 - u) ^ n) (sqrt f)) as [K|K]; [exact K|]. exfalso. nra.
  - destruct (Rle_dec (sqrt f) (/ (1 - u) ^ n)) as [K|K]; [exact K|]. exfalso.
    assert (I : 1 <= / (1 - u) ^ n) by (rewrite <- Rinv_1 at 1; apply Rinv_le_contravar; lra). nra.
Qed.

Definition like (n : nat) (r x : R) : Prop := exists h, near n h /\ x = r * h.

Lemma like_mul m n r s x y : like m r x -> like n s y -> like (m + n) (r * s) (x * y).
Proof. intros (h & H & ->) (k & K & ->). exists (h * k). split; [now apply near_mul|ring]. Qed.
Lemma like_le m n r x : (m <= n)%nat -> like m r x -> like n r x.
Proof. intros H (h & K & E). exists h. split; [now apply (near_le m)|exact E]. Qed.
Lemma like_trans m n r s x : like m r s -> like n s x -> like (m + n) r x.
Proof. intros (h & H & ->) (k & K & ->). exists (h * k). split; [now apply near_mul|ring]. Qed.
Lemma like_sum n r s x y : 0 <= r -> 0 <= s -> like n r x -> like n s y -> like n (r + s) (x + y).
Proof. intros A B (h & H & ->) (k & K & ->). destruct (near_sum n r s h k A B H K) as (f & F & E). exists f. split; assumption. Qed.
Lemma like_one r x d : Rabs d <= u -> x = r * (1 + d) -> like 1 r x.
Proof. intros H ->. exists (1 + d). split; [now apply near_one|reflexivity]. Qed.
Lemma like_refl r : like 0 r r.
Proof. exists 1. split; [apply near_refl|ring]. Qed.
Lemma like_sqrt n r x : 0 <= r -> like n r x -> like n (sqrt r) (sqrt x).
Proof. intros A (h & H & ->). exists (sqrt h). split; [now apply near_sqrt|]. apply sqrt_mult; [exact A|]. left. now apply near_pos in H. Qed.
Lemma like_div m n r s x y : s <> 0 -> like m r x -> like n s y -> like (m + n) (r / s) (x / y).
Proof.
  intros N (h & H & ->) (k & K & ->). exists (h * / k). split; [apply near_mul; [exact H|now apply near_inv]|].
  apply near_pos in K. field. split; lra.
Qed.
Lemma like_error n r x : INR n * u <= / 2 -> like n r x -> Rabs (x - r) <= 2 * INR n * u * Rabs r.
Proof.
  intros L (h & H & ->). apply near_close in H; [|exact L].
  replace (r * h - r) with (r * (h - 1)) by ring. rewrite Rabs_mult. pose proof (Rabs_pos r). nra.
Qed.
Lemma like_nonneg n r x : 0 <= r -> like n r x -> 0 <= x.
Proof. intros A (h & H & ->). apply near_pos in H. nra. Qed.
Lemma like_sq n r x : like n r x -> like (n + n) (r * r) (x * x).
Proof. intros H. now apply like_mul. Qed.
Lemma like_scaled n e r x : INR n * u <= / 2 -> like n r x -> scaled e r -> scaled (e + 1) x.
Proof. intros L (h & H & ->) S. now apply (scaled_near e n). Qed.

Lemma small_n n : (n <= 1000)%nat -> INR n * u <= / 2.
Proof.
  intros H. apply le_INR in H. pose proof u_pos. assert (INR 1000 = 1000) by (rewrite INR_IZR_INZ; reflexivity).
  assert (1000 * u <= / 2) by (unfold u; simpl; lra). nra.
Qed.

(** Operations, with results that are neither huge nor tiny. *)
Lemma mul_like (x y : b64) m n r s e f : fin x = true -> fin y = true -> like m r (val x) -> like n s (val y) ->
  scaled e r -> scaled f s -> (e + f <= 990)%Z -> (0 <= e)%Z -> (0 <= f)%Z -> (m <= 500)%nat -> (n <= 500)%nat ->
  fin (fmul x y) = true /\ like (m + n + 1) (r * s) (val (fmul x y)).
Proof.
  intros Fx Fy Lx Ly Sr Ss B E0 F0 Hm Hn.
  assert (Lxy : like (m + n) (r * s) (val x * val y)) by now apply like_mul.
  assert (S : scaled (e + f + 1) (val x * val y)).
  { eapply like_scaled; [|exact Lxy|now apply scaled_mul]. apply small_n. lia. }
  destruct (mul_ok x y Fx Fy) as (F & d & D & V).
  - destruct S as [-> |[_ S]]; [rewrite Rabs_R0; apply bpow_ge_0|]. eapply Rle_trans; [exact S|]. apply bpow_le. lia.
  - destruct S as [-> |[S _]]; [now left|]. right. eapply Rle_trans; [|exact S]. apply bpow_le. lia.
  - split; [exact F|]. eapply like_trans; [exact Lxy|]. now apply (like_one _ _ d).
Qed.

Lemma scaled_abs e r : (0 <= e)%Z -> scaled e r -> Rabs r <= pow2 e.
Proof. intros _ [-> |[_ H]]; [rewrite Rabs_R0; apply bpow_ge_0|exact H]. Qed.

Lemma like_abs n r x e : (n <= 1000)%nat -> like n r x -> Rabs r <= pow2 e -> Rabs x <= pow2 (e + 1).
Proof.
  intros N (h & H & ->) B. apply near_half in H; [|now apply small_n]. rewrite Rabs_mult, (Rabs_right h) by lra.
  rewrite bpow_plus. simpl (pow2 1). pose proof (Rabs_pos r). nra.
Qed.

Lemma add_like (x y : b64) n r s e : fin x = true -> fin y = true -> 0 <= r -> 0 <= s -> like n r (val x) -> like n s (val y) ->
  Rabs r <= pow2 e -> Rabs s <= pow2 e -> (e <= 990)%Z -> (n <= 900)%nat ->
  fin (fadd x y) = true /\ like (n + 1) (r + s) (val (fadd x y)).
Proof.
  intros Fx Fy Pr Ps Lx Ly Br Bs E N.
  assert (Lxy : like n (r + s) (val x + val y)) by now apply like_sum.
  destruct (add_ok x y Fx Fy) as (F & d & D & V).
  - apply Rle_trans with (pow2 (e + 1 + 1)); [|apply bpow_le; lia]. apply (like_abs n (r + s)); [lia|exact Lxy|].
    eapply Rle_trans; [apply Rabs_triang|]. rewrite bpow_plus. simpl (pow2 1). lra.
  - split; [exact F|]. eapply like_trans; [exact Lxy|]. now apply (like_one _ _ d).
Qed.

Lemma py_pow_ok f x : fin (f x) = true -> py_pow f x = inr (f x).
Proof. intros F. unfold py_pow. rewrite F. now rewrite andb_false_r. Qed.

Lemma scaled_sum e r s : (0 <= e)%Z -> 0 <= r -> 0 <= s -> scaled e r -> scaled e s -> scaled (e + 1) (r + s).
Proof.
  intros E0 R0 S0 R1 S1.
  assert (P : pow2 (- (e + 1)) <= pow2 (- e)) by (apply bpow_le; lia).
  assert (Q : pow2 (e + 1) = pow2 e + pow2 e) by (rewrite bpow_plus; simpl (pow2 1); lra).
  pose proof (bpow_ge_0 radix2 e) as G.
  destruct R1 as [-> |[A1 A2]]; destruct S1 as [-> |[B1 B2]].
  - left. ring.
  - right. rewrite Rplus_0_l. lra.
  - right. rewrite Rplus_0_r. lra.
  - right. rewrite Rabs_right in * by lra. lra.
Qed.

Lemma scaled_sq e r : scaled e r -> scaled (e + e) (r * r).
Proof. intros H. now apply scaled_mul. Qed.

Lemma sq_nonneg (r : R) : 0 <= r * r. Proof. nra. Qed.

Section Lib.
  Variable L : PowLib.
  Hypothesis A : accurate L.

  Lemma half_like (x : b64) n r e : fin x = true -> 0 <= r -> like n r (val x) -> scaled e r -> (0 <= e <= 890)%Z ->
    (n <= 900)%nat -> fin (pow_half L x) = true /\ like (n + 5) (sqrt r) (val (pow_half L x)).
  Proof.
    intros F P K S E N. assert (Px : 0 <= val x) by now apply (like_nonneg n r).
    destruct (right_near (pow_half L) sqrt x) as (F' & h & H & V).
    - apply (half_right L A); [exact F|exact Px|]. apply within_scaled; [exact Px|]. change (Z.of_nat 900) with 900%Z.
      apply (scaled_le (e + 1)); [lia|]. apply (like_scaled n e r); [apply small_n; lia|exact K|exact S].
    - apply sqrt_pos.
    - split; [exact F'|]. apply like_trans with (sqrt (val x)); [now apply like_sqrt|]. exists h. split; assumption.
  Qed.

  Lemma two_like (x : b64) n r e : fin x = true -> like n r (val x) -> scaled e r -> (0 <= e <= 440)%Z ->
    (n <= 400)%nat -> fin (pow_two L x) = true /\ like (n + n + 5) (r * r) (val (pow_two L x)).
  Proof.
    intros F K S E N.
    destruct (right_near (pow_two L) (fun r => r * r) x) as (F' & h & H & V).
    - apply (two_right L A); [exact F|]. apply within_scaled; [apply Rabs_pos|]. change (Z.of_nat 450) with 450%Z.
      assert (S1 : scaled (e + 1) (val x)) by (apply (like_scaled n e r); [apply small_n; lia|exact K|exact S]).
      apply (scaled_le _ 450) in S1; [|lia]. destruct S1 as [-> |S1]; [left; apply Rabs_R0|]. right. rewrite Rabs_Rabsolu. exact S1.
    - apply sq_nonneg.
    - split; [exact F'|]. apply like_trans with (val x * val x); [now apply like_sq|]. exists h. split; assumption.
  Qed.

  Lemma three_halves_like (x : b64) n r : fin x = true -> 0 <= r -> like n r (val x) -> scaled 610 r -> (n <= 900)%nat ->
    fin (pow_three_halves L x) = true /\ like 5 (val x * sqrt (val x)) (val (pow_three_halves L x)).
  Proof.
    intros F P K S N. assert (Px : 0 <= val x) by now apply (like_nonneg n r).
    destruct (right_near (pow_three_halves L) (fun r => r * sqrt r) x) as (F' & h & H & V).
    - apply (three_halves_right L A); [exact F|exact Px|]. apply within_scaled; [exact Px|]. change (Z.of_nat 620) with 620%Z.
      apply (scaled_le (610 + 1)); [lia|]. apply (like_scaled n 610 r); [apply small_n; lia|exact K|exact S].
    - apply Rmult_le_pos; [exact Px|apply sqrt_pos].
    - split; [exact F'|]. exists h. split; assumption.
  Qed.

  (** The momentum of a hit. *)
  Lemma get_p_like h : (forall v, In v [Vpx; Vpy; Vpz] -> fin (fg h v) = true /\ scaled 300 (val (fg h v))) ->
    exists p, get_p64 L h = inr p /\ fin p = true /\ like 12 (sqrt (psq h)) (val p).
  Proof.
    intros M. destruct (M Vpx) as [Fx Sx]; [now left|]. destruct (M Vpy) as [Fy Sy]; [now right; left|].
    destruct (M Vpz) as [Fz Sz]; [now right; right; left|]. clear M.
    destruct (two_like (fg h Vpx) 0 (val (fg h Vpx)) 300 Fx (like_refl _) Sx) as [Fx2 Lx]; [lia|lia|].
    destruct (two_like (fg h Vpy) 0 (val (fg h Vpy)) 300 Fy (like_refl _) Sy) as [Fy2 Ly]; [lia|lia|].
    destruct (two_like (fg h Vpz) 0 (val (fg h Vpz)) 300 Fz (like_refl _) Sz) as [Fz2 Lz]; [lia|lia|].
    pose proof (scaled_sq _ _ Sx) as Qx. pose proof (scaled_sq _ _ Sy) as Qy. pose proof (scaled_sq _ _ Sz) as Qz.
    change (300 + 300)%Z with 600%Z in *. cbn [Nat.add] in *.
    unfold get_p64. rewrite !py_pow_ok by assumption.
    destruct (add_like _ _ 5 _ _ 600 Fx2 Fy2 (sq_nonneg _) (sq_nonneg _) Lx Ly) as [F1 L1];
      [apply scaled_abs; [lia|exact Qx]|apply scaled_abs; [lia|exact Qy]|lia|lia|].
    pose proof (scaled_sum 600 _ _ ltac:(lia) (sq_nonneg _) (sq_nonneg _) Qx Qy) as Q1.
    apply (scaled_le 600 (600 + 1)) in Qz; [|lia].
    pose proof (Rplus_le_le_0_compat _ _ (sq_nonneg (val (fg h Vpx))) (sq_nonneg (val (fg h Vpy)))) as P1.
    destruct (add_like _ _ 6 _ _ 601 F1 Fz2 P1 (sq_nonneg _) L1 (like_le 5 6 _ _ ltac:(lia) Lz)) as [F2 L2];
      [apply scaled_abs; [lia|exact Q1]|apply scaled_abs; [lia|exact Qz]|lia|lia|].
    pose proof (scaled_sum 601 _ _ ltac:(lia) P1 (sq_nonneg _) Q1 Qz) as Q2.
    destruct (half_like _ 7 _ 602 F2 (Rplus_le_le_0_compat _ _ P1 (sq_nonneg _)) L2 Q2) as [F3 L3]; [lia|lia|].
    eexists. split; [apply py_pow_ok; exact F3|]. split; [exact F3|]. exact L3.
  Qed.
End Lib.

Lemma mod_fs h v : moderate_hit h -> In v [Vpx; Vpy; Vpz; Venergy; Vmass] -> fin (fg h v) = true /\ scaled 300 (val (fg h v)).
Proof. intros M I. apply moderate_scaled. now apply M. Qed.

Lemma square_like (x : b64) : fin x = true -> scaled 300 (val x) ->
  fin (fmul x x) = true /\ like 1 (val x * val x) (val (fmul x x)) /\ scaled 600 (val x * val x).
Proof.
  intros F S. destruct (mul_like x x 0 0 _ _ 300 300 F F (like_refl _) (like_refl _) S S) as [F1 L1]; try lia.
  split; [exact F1|]. split; [exact L1|]. exact (scaled_sq _ _ S).
Qed.

Lemma fs_same h v x : fg (fs h v x) v = x.
Proof. unfold fg, fs, hit_set_dbl. cbn. destruct (dblvar_eq_dec v v); [reflexivity|congruence]. Qed.
Lemma fs_other h v w x : v <> w -> fg (fs h v x) w = fg h w.
Proof. intros N. unfold fg, fs, hit_set_dbl. cbn. destruct (dblvar_eq_dec v w); [congruence|reflexivity]. Qed.
Lemma kept_one h v x : others_kept [v] h (fs h v x).
Proof.
  split; [|reflexivity]. intros w W. apply (fs_other h v w x). intros ->. apply W. now left.
Qed.

Section Energy.
  Variable L : PowLib.
  Hypothesis A : accurate L.

  Lemma energy_like h : (forall v, In v [Vpx; Vpy; Vpz; Vmass] -> fin (fg h v) = true /\ scaled 300 (val (fg h v))) ->
    exists e, mass_shell64 L h "energy" = (fs h Venergy e, ShTrue) /\ fin e = true /\ like 9 (sqrt (msq h + psq h)) (val e).
  Proof.
    intros M. destruct (M Vpx) as [Fx Sx]; [now left|]. destruct (M Vpy) as [Fy Sy]; [now right; left|].
    destruct (M Vpz) as [Fz Sz]; [now right; right; left|]. destruct (M Vmass) as [Fm Sm]; [now right; right; right; left|]. clear M.
    destruct (square_like _ Fx Sx) as (Gx & Lx & Qx). destruct (square_like _ Fy Sy) as (Gy & Ly & Qy).
    destruct (square_like _ Fz Sz) as (Gz & Lz & Qz). destruct (square_like _ Fm Sm) as (Gm & Lm & Qm).
    unfold mass_shell64. cbn [String.eqb Ascii.eqb Bool.eqb].
    pose proof (sq_nonneg (val (fg h Vpx))) as Px. pose proof (sq_nonneg (val (fg h Vpy))) as Py.
    pose proof (sq_nonneg (val (fg h Vpz))) as Pz. pose proof (sq_nonneg (val (fg h Vmass))) as Pm.
    destruct (add_like _ _ 1 _ _ 600 Gm Gx Pm Px Lm Lx) as [F1 L1];
      [apply scaled_abs; [lia|assumption]|apply scaled_abs; [lia|assumption]|lia|lia|].
    pose proof (scaled_sum 600 _ _ ltac:(lia) Pm Px Qm Qx) as Q1. change (600 + 1)%Z with 601%Z in Q1.
    pose proof (Rplus_le_le_0_compat _ _ Pm Px) as P1.
    apply (scaled_le 600 601) in Qy; [|lia].
    destruct (add_like _ _ 2 _ _ 601 F1 Gy P1 Py L1 (like_le 1 2 _ _ ltac:(lia) Ly)) as [F2 L2];
      [apply scaled_abs; [lia|assumption]|apply scaled_abs; [lia|assumption]|lia|lia|].
    pose proof (scaled_sum 601 _ _ ltac:(lia) P1 Py Q1 Qy) as Q2. change (601 + 1)%Z with 602%Z in Q2.
    pose proof (Rplus_le_le_0_compat _ _ P1 Py) as P2.
    apply (scaled_le 600 602) in Qz; [|lia].
    destruct (add_like _ _ 3 _ _ 602 F2 Gz P2 Pz L2 (like_le 1 3 _ _ ltac:(lia) Lz)) as [F3 L3];
      [apply scaled_abs; [lia|assumption]|apply scaled_abs; [lia|assumption]|lia|lia|].
    pose proof (scaled_sum 602 _ _ ltac:(lia) P2 Pz Q2 Qz) as Q3. change (602 + 1)%Z with 603%Z in Q3.
    pose proof (Rplus_le_le_0_compat _ _ P2 Pz) as P3.
    destruct (half_like L A _ 4 _ 603 F3 P3 L3 Q3) as [F4 L4]; [lia|lia|].
    rewrite py_pow_ok by exact F4. eexists. split; [reflexivity|]. split; [exact F4|].
    replace (msq h + psq h) with (val (fg h Vmass) * val (fg h Vmass) + val (fg h Vpx) * val (fg h Vpx)
      + val (fg h Vpy) * val (fg h Vpy) + val (fg h Vpz) * val (fg h Vpz)); [exact L4|].
    unfold msq, psq, of_hit, fg. ring.
  Qed.

  (** One subtraction in a sum of squares. *)
  Lemma sub_step (x y : b64) r t W k : fin x = true -> fin y = true -> Rabs (val x - r) <= k * u * W -> Rabs r <= W ->
    0 <= t -> like 1 t (val y) -> 2 <= k <= 8 -> W <= pow2 900 -> t <= pow2 900 ->
    fin (fsub x y) = true /\ Rabs (val (fsub x y) - (r - t)) <= (k + 1 + / 5) * u * (W + t) /\ Rabs (r - t) <= W + t.
  Proof.
    intros Fx Fy X R1 T Y K W9 T9. pose proof u_pos as Pu. pose proof u_small as Su.
    apply like_error in Y; [|apply small_n; lia]. simpl INR in Y. rewrite (Rabs_right t) in Y by lra.
    assert (W0 : 0 <= W) by (pose proof (Rabs_pos r); lra).
    apply Rabs_le_inv in X, R1, Y.
    assert (Y2 : - (2 * u * t) <= val y - t <= 2 * u * t) by lra.
    assert (KU : k * u <= 8 * / 1000) by (apply Rmult_le_compat; lra).
    assert (B : k * u * W <= W / 100). { apply Rle_trans with (8 * / 1000 * W); [apply Rmult_le_compat_r; lra|lra]. }
    assert (B2 : 2 * u * t <= t / 100). { apply Rle_trans with (2 * / 1000 * t); [apply Rmult_le_compat_r; lra|lra]. }
    assert (D1 : Rabs (val x - val y) <= 2 * (W + t)) by (apply Rabs_le; lra).
    destruct (sub_ok x y Fx Fy) as (F & d & D & V).
    { eapply Rle_trans; [exact D1|]. apply Rle_trans with (2 * (2 * pow2 900)); [lra|].
      replace (2 * (2 * pow2 900)) with (pow2 902); [apply bpow_le; lia|].
      change 902%Z with (2 + 900)%Z. rewrite bpow_plus. simpl (pow2 2). lra. }
    split; [exact F|]. split; [|apply Rabs_le; lra]. rewrite V.
    replace ((val x - val y) * (1 + d) - (r - t)) with (((val x - r) - (val y - t)) + (val x - val y) * d) by ring.
    assert (D2 : Rabs ((val x - val y) * d) <= (W + t + W / 100 + t / 100) * u).
    { rewrite Rabs_mult. apply Rmult_le_compat; try apply Rabs_pos; [apply Rabs_le; lra|exact D]. }
    apply Rabs_le_inv in D2. apply Rabs_le.
    assert (0 <= u * W) by (apply Rmult_le_pos; lra). assert (0 <= u * t) by (apply Rmult_le_pos; lra).
    assert (2 * (u * t) <= k * (u * t)) by (apply Rmult_le_compat_r; lra).
    assert (E : (k + 1 + / 5) * u * (W + t) = k * (u * W) + (u * W) * (1 + / 5) + k * (u * t) + (u * t) * (1 + / 5)) by field.
    rewrite E. replace (k * u * W) with (k * (u * W)) in X by ring. lra.
  Qed.

  (** e*e - m*m - a*a - b*b. *)
  Lemma residual_ok (e m a b : b64) :
    (forall x, In x [e; m; a; b] -> fin x = true /\ scaled 300 (val x)) ->
    let x := fsub (fsub (fsub (fmul e e) (fmul m m)) (fmul a a)) (fmul b b) in
    let W := val e * val e + val m * val m + val a * val a + val b * val b in
    fin x = true /\ Rabs (val x - (val e * val e - val m * val m - val a * val a - val b * val b)) <= 6 * u * W /\
    W <= pow2 602 /\ 0 <= W /\ Rabs (val e * val e - val m * val m - val a * val a - val b * val b) <= W.
  Proof.
    intros M. cbv zeta. destruct (M e) as [Fe Se]; [now left|]. destruct (M m) as [Fm Sm]; [now right; left|].
    destruct (M a) as [Fa Sa]; [now right; right; left|]. destruct (M b) as [Fb Sb]; [now right; right; right; left|]. clear M.
    destruct (square_like _ Fe Se) as (Ge & Le & Qe). destruct (square_like _ Fm Sm) as (Gm & Lm & Qm).
    destruct (square_like _ Fa Sa) as (Ga & La & Qa). destruct (square_like _ Fb Sb) as (Gb & Lb & Qb).
    apply scaled_abs in Qe, Qm, Qa, Qb; try lia.
    pose proof (sq_nonneg (val e)) as Pe. pose proof (sq_nonneg (val m)) as Pm.
    pose proof (sq_nonneg (val a)) as Pa. pose proof (sq_nonneg (val b)) as Pb.
    rewrite Rabs_right in Qe, Qm, Qa, Qb by lra.
    set (e2 := val e * val e) in *. set (m2 := val m * val m) in *. set (a2 := val a * val a) in *. set (b2 := val b * val b) in *.
    assert (B602 : 4 * pow2 600 = pow2 602) by (change 602%Z with (2 + 600)%Z; rewrite bpow_plus; simpl (pow2 2); lra).
    assert (B900 : pow2 602 <= pow2 900) by (apply bpow_le; lia).
    pose proof (bpow_ge_0 radix2 600) as G600. pose proof u_pos as Pu.
    apply like_error in Le; [|apply small_n; lia]. simpl INR in Le. rewrite (Rabs_right e2) in Le by lra.
    destruct (sub_step (fmul e e) (fmul m m) e2 m2 e2 2) as (F1 & E1 & R1); try assumption; try lra; try (rewrite Rabs_right; lra).
    destruct (sub_step _ (fmul a a) _ a2 _ _ F1 Ga E1 R1) as (F2 & E2 & R2); try assumption; try lra.
    destruct (sub_step _ (fmul b b) _ b2 _ _ F2 Gb E2 R2) as (F3 & E3 & R3); try assumption; try lra.
    split; [exact F3|]. split; [|split; [lra|split; [lra|exact R3]]].
    eapply Rle_trans; [exact E3|]. apply Rmult_le_compat_r; [lra|]. apply Rmult_le_compat_r; lra.
  Qed.

  Lemma micro_val : fin micro = true /\ 9 / 10 ^ 7 < val micro < 11 / 10 ^ 7.
  Proof.
    destruct (ofZ_exact 1000000) as [F V]; [lia|]. destruct one_val as [F1 V1].
    destruct (div_ok fone (b64_of_Z 1000000) F1) as (F2 & d & Hd & E).
    - rewrite V. lra.
    - rewrite V, V1. rewrite Rabs_right by lra. apply Rle_trans with 1; [lra|]. change 1 with (pow2 0). apply bpow_le. lia.
    - right. rewrite V, V1. rewrite Rabs_right by lra. apply Rle_trans with (pow2 (-53)); [apply bpow_le; lia|]. simpl. lra.
    - split; [exact F2|]. change micro with (fdiv fone (b64_of_Z 1000000)). rewrite E, V, V1.
      apply Rabs_le_inv in Hd. pose proof u_small. pose proof u_pos. lra.
  Qed.

  (** The branches for a component of the momentum. *)
  Lemma component_ok h v (x : b64) V W : fin x = true -> Rabs (val x - V) <= 6 * u * W -> W <= pow2 602 -> 0 <= W -> Rabs V <= W ->
    exists c r, component L h v x = (fs h v c, r) /\ fin c = true /\
      ((r = ShTrue /\ 0 < val c /\ Rabs (val c * val c - V) <= 40 * u * W /\ 9 / 10 ^ 7 < V + 6 * u * W) \/
       (r = ShFalse /\ val c = 0 /\ V - 6 * u * W < 11 / 10 ^ 7)).
  Proof.
    intros F X W6 W0 V0. unfold component. destruct micro_val as [Fm Vm].
    rewrite (flt_finite micro x Fm F). destruct (rlt (val micro) (val x)) eqn:C.
    - apply rlt_true in C. apply Rabs_le_inv in X, V0. pose proof u_pos as Pu. pose proof u_small as Su.
      assert (B : 6 * u * W <= W / 100). { apply Rle_trans with (6 * / 1000 * W); [apply Rmult_le_compat_r; lra|lra]. }
      assert (Px : / 2 ^ 21 <= val x) by (simpl; lra).
      assert (Fa : fin (fabs x) = true) by (destruct x; try reflexivity; exact F).
      assert (Va : val (fabs x) = val x) by (rewrite B2R_Babs; apply Rabs_right; lra).
      assert (S : scaled 610 (val x)).
      { right. rewrite Rabs_right by lra. split.
        - apply Rle_trans with (2 := Px). rewrite pow_inv64. apply bpow_le. lia.
        - apply Rle_trans with (pow2 603); [|apply bpow_le; lia]. change 603%Z with (1 + 602)%Z. rewrite bpow_plus. simpl (pow2 1). lra. }
      destruct (three_halves_like L A (fabs x) 0 (val x) Fa ltac:(lra)) as [Fw Lw]; [rewrite Va; apply like_refl|exact S|lia|].
      rewrite Va in Lw. rewrite py_pow_ok by exact Fw.
      set (w := pow_three_halves L (fabs x)) in *.
      assert (Ps : 0 < sqrt (val x)) by (apply sqrt_lt_R0; lra). pose proof (sqrt_sqrt (val x) ltac:(lra)) as SS.
      assert (Lq : like 5 (sqrt (val x)) (val w / val x)).
      { destruct Lw as (k & K & E). exists k. split; [exact K|]. rewrite E. field. lra. }
      assert (Sq : scaled 310 (sqrt (val x))).
      { right. rewrite Rabs_right by lra. split.
        - apply Rle_trans with (/ 2 ^ 11); [rewrite pow_inv64; apply bpow_le; lia|].
          destruct (Rle_dec (/ 2 ^ 11) (sqrt (val x))) as [K|K]; [exact K|]. exfalso. simpl in *. nra.
        - pose proof (scaled_abs 610 _ ltac:(lia) S) as U. rewrite Rabs_right in U by lra.
          destruct (Rle_dec (sqrt (val x)) (pow2 310)) as [K|K]; [exact K|]. exfalso.
          assert (pow2 310 * pow2 310 = pow2 620) by (rewrite <- bpow_plus; reflexivity).
          assert (pow2 610 <= pow2 620) by (apply bpow_le; lia). pose proof (bpow_gt_0 radix2 310). nra. }
      assert (Sc : scaled 311 (val w / val x)) by (apply (like_scaled 5 310 (sqrt (val x))); [apply small_n; lia|exact Lq|exact Sq]).
      destruct (div_ok w x Fw ltac:(lra)) as (Fc & d & D & Vc).
      + apply Rle_trans with (pow2 311); [apply scaled_abs; [lia|exact Sc]|apply bpow_le; lia].
      + destruct Sc as [-> |[Sc _]]; [now left|right]. eapply Rle_trans; [|exact Sc]. apply bpow_le. lia.
      + exists (fdiv w x), ShTrue. split; [reflexivity|]. split; [exact Fc|]. left. split; [reflexivity|].
        assert (Lc : like 6 (sqrt (val x)) (val (fdiv w x))).
        { apply (like_trans 5 1 _ _ _ Lq). now apply (like_one _ _ d). }
        split.
        { destruct Lc as (k & K & ->). apply near_pos in K. now apply Rmult_lt_0_compat. }
        pose proof (like_sq _ _ _ Lc) as L2. rewrite SS in L2. apply like_error in L2; [|apply small_n; lia].
        simpl Nat.add in L2. replace (INR 12) with 12 in L2 by (rewrite INR_IZR_INZ; reflexivity).
        rewrite (Rabs_right (val x)) in L2 by lra. apply Rabs_le_inv in L2.
        assert (0 <= u * W) by (apply Rmult_le_pos; lra).
        assert (24 * u * val x <= 24 * u * (W + W / 100)) by (apply Rmult_le_compat_l; lra).
        split; [apply Rabs_le; lra|lra].
    - apply rlt_false in C. exists fzero, ShFalse. split; [reflexivity|]. split; [reflexivity|]. right.
      split; [reflexivity|]. split; [reflexivity|]. apply Rabs_le_inv in X. lra.
  Qed.
End Energy.

(** Differences of doubles that are not tiny. *)
Lemma grid (x : b64) : scaled 300 (val x) -> exists k, val x = IZR k * pow2 (-352).
Proof.
  intros [Z|[S _]]; [exists 0%Z; rewrite Z; ring|].
  pose proof (generic_format_B2R prec64 emax64 x) as G. unfold generic_format in G.
  set (c := cexp radix2 (SpecFloat.fexp prec64 emax64) (val x)) in *.
  assert (C : (-352 <= c)%Z).
  { unfold c, cexp. pose proof (mag_ge_bpow radix2 (val x) (-299) S) as M.
    unfold SpecFloat.fexp. eapply Z.le_trans; [|apply Z.le_max_l]. assert (H : prec64 = 53%Z) by reflexivity. lia. }
  exists (Ztrunc (scaled_mantissa radix2 (SpecFloat.fexp prec64 emax64) (val x)) * 2 ^ (c + 352))%Z.
  rewrite G at 1. unfold F2R. cbn [Fnum Fexp]. rewrite mult_IZR, Rmult_assoc. f_equal.
  change 2%Z with (radix_val radix2). rewrite IZR_Zpower by lia. rewrite <- bpow_plus. f_equal. lia.
Qed.

Lemma grid_scaled r k e : r = IZR k * pow2 (-352) -> Rabs r <= pow2 e -> (e <= 352)%Z -> scaled 352 r.
Proof.
  intros E B H. destruct (Z.eq_dec k 0) as [-> |N]; [left; rewrite E; ring|]. right. split.
  - rewrite E, Rabs_mult, (Rabs_right (pow2 (-352))) by (apply Rle_ge, bpow_ge_0). change (- (352))%Z with (-352)%Z.
    rewrite <- (Rmult_1_l (pow2 (-352))) at 1. apply Rmult_le_compat_r; [apply bpow_ge_0|].
    rewrite <- abs_IZR. apply IZR_le. lia.
  - eapply Rle_trans; [exact B|]. now apply bpow_le.
Qed.

Lemma scaled_sqrt e r : 0 <= r -> scaled (e + e) r -> scaled e (sqrt r).
Proof.
  intros P [-> |[S1 S2]]; [left; apply sqrt_0|]. right. rewrite Rabs_right in S1, S2 by lra.
  rewrite Rabs_right by (apply Rle_ge, sqrt_pos).
  rewrite <- (sqrt_square (pow2 (- e))), <- (sqrt_square (pow2 e)) by apply bpow_ge_0. rewrite <- !bpow_plus.
  replace (- e + - e)%Z with (- (e + e))%Z by lia. split; now apply sqrt_le_1_alt.
Qed.

Lemma scaled_inv e r : r <> 0 -> scaled e r -> scaled e (/ r).
Proof.
  intros N [Z|[S1 S2]]; [contradiction|]. right. rewrite Rabs_inv. pose proof (Rabs_pos_lt r N) as P.
  pose proof (bpow_gt_0 radix2 e) as G.
  split.
  - rewrite bpow_opp. now apply Rinv_le_contravar.
  - replace (pow2 e) with (/ pow2 (- e)) by (rewrite bpow_opp, Rinv_inv; reflexivity).
    apply Rinv_le_contravar; [apply bpow_gt_0|exact S1].
Qed.

Lemma div_like (x y : b64) m n r s e f : fin x = true -> like m r (val x) -> like n s (val y) -> s <> 0 ->
  scaled e r -> scaled f s -> (e + f <= 990)%Z -> (0 <= e)%Z -> (0 <= f)%Z -> (m <= 500)%nat -> (n <= 500)%nat ->
  fin (fdiv x y) = true /\ like (m + n + 1) (r / s) (val (fdiv x y)) /\ scaled (e + f) (r / s).
Proof.
  intros Fx Lx Ly N Sr Ss B E0 F0 Hm Hn.
  assert (Lxy : like (m + n) (r / s) (val x / val y)) by now apply like_div.
  assert (S0 : scaled (e + f) (r / s)) by (apply scaled_mul; [exact Sr|now apply scaled_inv]).
  assert (S : scaled (e + f + 1) (val x / val y)).
  { eapply like_scaled; [|exact Lxy|exact S0]. apply small_n. lia. }
  assert (Ny : val y <> 0).
  { destruct Ly as (k & K & ->). apply near_pos in K. apply Rmult_integral_contrapositive_currified; [exact N|lra]. }
  destruct (div_ok x y Fx Ny) as (F & d & D & V).
  - destruct S as [-> |[_ S]]; [rewrite Rabs_R0; apply bpow_ge_0|]. eapply Rle_trans; [exact S|]. apply bpow_le. lia.
  - destruct S as [-> |[S _]]; [now left|]. right. eapply Rle_trans; [|exact S]. apply bpow_le. lia.
  - split; [exact F|]. split; [|exact S0]. eapply like_trans; [exact Lxy|]. now apply (like_one _ _ d).
Qed.

Lemma psq_scaled h : (forall v, In v [Vpx; Vpy; Vpz] -> scaled 300 (val (fg h v))) -> scaled 602 (psq h) /\ 0 <= psq h.
Proof.
  intros M. pose proof (scaled_sq _ _ (M Vpx ltac:(now left))) as Qx.
  pose proof (scaled_sq _ _ (M Vpy ltac:(now right; left))) as Qy.
  pose proof (scaled_sq _ _ (M Vpz ltac:(now right; right; left))) as Qz.
  pose proof (scaled_sum 600 _ _ ltac:(lia) (sq_nonneg _) (sq_nonneg _) Qx Qy) as Q1.
  pose proof (Rplus_le_le_0_compat _ _ (sq_nonneg (val (fg h Vpx))) (sq_nonneg (val (fg h Vpy)))) as P1.
  apply (scaled_le (300 + 300) (600 + 1)) in Qz; [|lia].
  pose proof (scaled_sum 601 _ _ ltac:(lia) P1 (sq_nonneg _) Q1 Qz) as Q2.
  split; [exact Q2|]. unfold psq. exact (Rplus_le_le_0_compat _ _ P1 (sq_nonneg (val (fg h Vpz)))).
Qed.

Lemma scaled_one : fin fone = true /\ scaled 300 (val fone).
Proof.
  destruct one_val as [F V]. split; [exact F|]. rewrite V. right. rewrite Rabs_R1. change 1 with (pow2 0).
  split; apply bpow_le; lia.
Qed.

Lemma psq_zero h : psq h = 0 -> of_hit h Vpx = 0 /\ of_hit h Vpy = 0 /\ of_hit h Vpz = 0.
Proof.
  unfold psq. intros E. pose proof (sq_nonneg (of_hit h Vpx)). pose proof (sq_nonneg (of_hit h Vpy)).
  pose proof (sq_nonneg (of_hit h Vpz)). repeat split; apply Rsqr_0_uniq; unfold Rsqr; lra.
Qed.

Section SetP.
  Variable L : PowLib.
  Hypothesis A : accurate L.

  (** The momentum that set_p scales. *)
  Definition start (h : FHit) : FHit := if Req_EM_T (psq h) 0 then fs h Vpz fone else h.

  Lemma start_ok h : (forall v, In v [Vpx; Vpy; Vpz] -> fin (fg h v) = true /\ scaled 300 (val (fg h v))) ->
    (forall v, In v [Vpx; Vpy; Vpz] -> fin (fg (start h) v) = true /\ scaled 300 (val (fg (start h) v))) /\ 0 < psq (start h).
  Proof.
    intros M. destruct (psq_scaled h (fun v I => proj2 (M v I))) as [_ P]. unfold start. destruct (Req_EM_T (psq h) 0) as [E|E].
    - split.
      + intros v I. destruct (dblvar_eq_dec Vpz v) as [<-|N]; [rewrite fs_same; exact scaled_one|].
        rewrite fs_other by exact N. now apply M.
      + destruct (psq_zero h E) as (X & Y & _). unfold psq, of_hit in *.
        change (h_dbl (fs h Vpz fone) Vpx) with (h_dbl h Vpx). change (h_dbl (fs h Vpz fone) Vpy) with (h_dbl h Vpy).
        change (h_dbl (fs h Vpz fone) Vpz) with fone. rewrite X, Y, (proj2 one_val). lra.
    - split; [exact M|lra].
  Qed.

  Lemma set_p_ok h x X n : (forall v, In v [Vpx; Vpy; Vpz] -> fin (fg h v) = true /\ scaled 300 (val (fg h v))) ->
    fin x = true -> 0 <= X -> like n (sqrt X) (val x) -> scaled 352 (sqrt X) -> (n <= 100)%nat ->
    exists s h', set_p64 L h (Some x) = (h', None) /\ fin s = true /\
      like (n + 13) (sqrt X / sqrt (psq (start h))) (val s) /\
      others_kept [Vpx; Vpy; Vpz] h h' /\
      forall v, In v [Vpx; Vpy; Vpz] -> fin (fg h' v) = true /\ like 1 (val (fg (start h) v) * val s) (val (fg h' v)).
  Proof.
    intros M Fx PX Lx SX Hn. destruct (start_ok h M) as [M1 P1].
    destruct (get_p_like L A h M) as (p & Gp & Fp & Lp). destruct (psq_scaled h (fun v I => proj2 (M v I))) as [_ P].
    unfold set_p64. rewrite Gp.
    assert (E : (if feq p fzero then fs h Vpz fone else h) = start h).
    { unfold start. rewrite (Beqb_correct _ _ p fzero Fp eq_refl). change (val fzero) with 0.
      destruct Lp as (k & K & ->). apply near_pos in K. destruct (Req_EM_T (psq h) 0) as [Z|Z].
      - rewrite Z, sqrt_0, Rmult_0_l, Req_bool_true by reflexivity. reflexivity.
      - rewrite Req_bool_false; [reflexivity|]. assert (0 < sqrt (psq h)) by (apply sqrt_lt_R0; lra). nra. }
    rewrite E. destruct (get_p_like L A (start h) M1) as (p1 & Gp1 & Fp1 & Lp1). rewrite Gp1.
    assert (SP : scaled 301 (sqrt (psq (start h)))).
    { apply scaled_sqrt; [lra|]. apply (psq_scaled _ (fun v I => proj2 (M1 v I))). }
    assert (NP : sqrt (psq (start h)) <> 0) by (pose proof (sqrt_lt_R0 _ P1); lra).
    destruct (div_like x p1 n 12 _ _ 352 301 Fx Lx Lp1 NP SX SP) as (Fs & Ls & Ss); [lia|lia|lia|lia|lia|].
    set (s := fdiv x p1) in *. set (g := start h) in *.
    assert (Mul : forall v, In v [Vpx; Vpy; Vpz] -> fin (fmul (fg g v) s) = true /\ like 1 (val (fg g v) * val s) (val (fmul (fg g v) s))).
    { intros v I. destruct (M1 v I) as [Fv Sv].
      assert (Ss2 : scaled 654 (val s)) by (apply (like_scaled (n + 12 + 1) 653 (sqrt X / sqrt (psq g))); [apply small_n; lia|exact Ls|exact Ss]).
      destruct (mul_like (fg g v) s 0 0 _ _ 300 654 Fv Fs (like_refl _) (like_refl _) Sv Ss2) as [F1 L1]; try lia. split; assumption. }
    exists s. eexists. split; [reflexivity|]. split; [exact Fs|]. split; [replace (n + 13)%nat with (n + 12 + 1)%nat by lia; exact Ls|].
    split.
    - split; [|unfold g, start; destruct (Req_EM_T (psq h) 0); reflexivity].
      intros v I. cbn [In] in I.
      change (fg (fs (fs (fs g Vpx (fmul (fg g Vpx) s)) Vpy (fmul (fg (fs g Vpx (fmul (fg g Vpx) s)) Vpy) s)) Vpz
        (fmul (fg (fs (fs g Vpx (fmul (fg g Vpx) s)) Vpy (fmul (fg (fs g Vpx (fmul (fg g Vpx) s)) Vpy) s)) Vpz) s)) v = fg h v).
      rewrite !fs_other by (intros <-; tauto). unfold g, start. destruct (Req_EM_T (psq h) 0); [|reflexivity].
      apply fs_other. intros <-. tauto.
    - intros v [<-|[<-|[<-|[]]]].
      + rewrite !fs_other by discriminate. rewrite fs_same. apply Mul. now left.
      + rewrite (fs_other _ Vpz Vpy) by discriminate. rewrite fs_same, fs_other by discriminate. apply Mul. now right; left.
      + rewrite fs_same, !fs_other by discriminate. apply Mul. now right; right; left.
  Qed.
End SetP.

Section P.
  Variable L : PowLib.
  Hypothesis A : accurate L.

  (** e*e - m*m as the code has it. *)
  Lemma factors_ok (e m : b64) : fin e = true -> fin m = true -> scaled 300 (val e) -> scaled 300 (val m) ->
    fin (fmul (fsub e m) (fadd e m)) = true /\
    like 3 (val e * val e - val m * val m) (val (fmul (fsub e m) (fadd e m))) /\
    scaled 704 (val e * val e - val m * val m).
  Proof.
    intros Fe Fm Se Sm. destruct (grid e Se) as (k & Ek). destruct (grid m Sm) as (l & El).
    pose proof (scaled_abs 300 _ ltac:(lia) Se) as Be. pose proof (scaled_abs 300 _ ltac:(lia) Sm) as Bm.
    assert (B301 : pow2 301 = pow2 300 + pow2 300) by (change 301%Z with (1 + 300)%Z; rewrite bpow_plus; simpl (pow2 1); lra).
    apply Rabs_le_inv in Be, Bm.
    assert (D : scaled 352 (val e - val m)).
    { apply (grid_scaled _ (k - l) 301); [rewrite Ek, El, minus_IZR; ring|apply Rabs_le; lra|lia]. }
    assert (S : scaled 352 (val e + val m)).
    { apply (grid_scaled _ (k + l) 301); [rewrite Ek, El, plus_IZR; ring|apply Rabs_le; lra|lia]. }
    assert (Big : pow2 301 <= pow2 1000) by (apply bpow_le; lia).
    destruct (sub_ok e m Fe Fm) as (F1 & d1 & D1 & V1); [apply Rabs_le; lra|].
    destruct (add_ok e m Fe Fm) as (F2 & d2 & D2 & V2); [apply Rabs_le; lra|].
    destruct (mul_like (fsub e m) (fadd e m) 1 1 _ _ 352 352 F1 F2 (like_one _ _ d1 D1 V1) (like_one _ _ d2 D2 V2) D S) as [F3 L3]; try lia.
    replace (val e * val e - val m * val m) with ((val e - val m) * (val e + val m)) by ring.
    split; [exact F3|]. split; [exact L3|]. exact (scaled_mul 352 352 _ _ D S).
  Qed.

  Lemma p_ok h : moderate_hit h -> msq h <= esq h ->
    exists s h', mass_shell64 L h "p" = (h', ShTrue) /\ 0 <= val s /\
      like 21 (sqrt (esq h - msq h) / sqrt (psq (start h))) (val s) /\
      others_kept [Vpx; Vpy; Vpz] h h' /\
      forall v, In v [Vpx; Vpy; Vpz] -> fin (fg h' v) = true /\ like 1 (val (fg (start h) v) * val s) (val (fg h' v)).
  Proof.
    intros M H. destruct (mod_fs h Venergy M) as [Fe Se]; [cbn; tauto|]. destruct (mod_fs h Vmass M) as [Fm Sm]; [cbn; tauto|].
    destruct (factors_ok _ _ Fe Fm Se Sm) as (F & K & S). fold (of_hit h Venergy) in *.
    change (val (fg h Venergy) * val (fg h Venergy) - val (fg h Vmass) * val (fg h Vmass)) with (esq h - msq h) in *.
    set (x := fmul (fsub (fg h Venergy) (fg h Vmass)) (fadd (fg h Venergy) (fg h Vmass))) in *.
    assert (P : 0 <= esq h - msq h) by lra.
    assert (Px : 0 <= val x) by now apply (like_nonneg 3 (esq h - msq h)).
    destruct (half_like L A x 3 _ 704 F P K S) as [F2 K2]; [lia|lia|].
    destruct (set_p_ok L A h (pow_half L x) (esq h - msq h) 8) as (s & h' & E & Fs & Ls & O & C).
    - intros v I. apply (mod_fs h v M). cbn in *; tauto.
    - exact F2.
    - exact P.
    - exact K2.
    - apply scaled_sqrt; [exact P|exact S].
    - lia.
    - exists s, h'. unfold mass_shell64. cbv zeta. cbn [String.eqb Ascii.eqb Bool.eqb]. fold x.
      rewrite (flt_finite x fzero F eq_refl).
      replace (rlt (val x) (val fzero)) with false by (symmetry; apply rlt_false; exact Px).
      rewrite py_pow_ok by exact F2. cbv beta iota. match goal with |- context [set_p64 L h ?v] => replace (set_p64 L h v) with (h', @None FErr) by (symmetry; exact E) end. split; [reflexivity|]. split; [|split; [exact Ls|split; [exact O|exact C]]].
      apply (like_nonneg 21) in Ls; [exact Ls|]. apply Rmult_le_pos; [apply sqrt_pos|].
      destruct (start_ok h) as [_ P1]; [intros v I; apply (mod_fs h v M); cbn in *; tauto|].
      left. apply Rinv_0_lt_compat. now apply sqrt_lt_R0.
  Qed.

  Lemma p_fails h : moderate_hit h -> esq h < msq h ->
    exists h', mass_shell64 L h "p" = (h', ShErr FIndexError) /\ of_hit h' Vpx = -1 /\ others_kept [Vpx; Vpz] h h' /\
      fg h' Vpz = fg (start h) Vpz.
  Proof.
    intros M H. destruct (mod_fs h Venergy M) as [Fe Se]; [cbn; tauto|]. destruct (mod_fs h Vmass M) as [Fm Sm]; [cbn; tauto|].
    destruct (factors_ok _ _ Fe Fm Se Sm) as (F & (k & K & E) & S).
    change (val (fg h Venergy) * val (fg h Venergy) - val (fg h Vmass) * val (fg h Vmass)) with (esq h - msq h) in *.
    set (x := fmul (fsub (fg h Venergy) (fg h Vmass)) (fadd (fg h Venergy) (fg h Vmass))) in *.
    apply near_pos in K.
    assert (M0 : forall v, In v [Vpx; Vpy; Vpz] -> fin (fg h v) = true /\ scaled 300 (val (fg h v))).
    { intros v I. apply (mod_fs h v M). cbn in *; tauto. }
    destruct (start_ok h M0) as [M1 P1].
    destruct (get_p_like L A h M0) as (p & Gp & Fp & Lp). destruct (psq_scaled h (fun v I => proj2 (M0 v I))) as [_ P].
    assert (Es : (if feq p fzero then fs h Vpz fone else h) = start h).
    { unfold start. rewrite (Beqb_correct _ _ p fzero Fp eq_refl). change (val fzero) with 0.
      destruct Lp as (j & J & ->). apply near_pos in J. destruct (Req_EM_T (psq h) 0) as [Z|Z].
      - rewrite Z, sqrt_0, Rmult_0_l, Req_bool_true by reflexivity. reflexivity.
      - rewrite Req_bool_false; [reflexivity|]. assert (0 < sqrt (psq h)) by (apply sqrt_lt_R0; lra). nra. }
    destruct (get_p_like L A (start h) M1) as (p1 & Gp1 & _ & _).
    exists (fs (start h) Vpx (b64_of_Z (-1))). unfold mass_shell64. cbv zeta. cbn [String.eqb Ascii.eqb Bool.eqb]. fold x.
    rewrite (flt_finite x fzero F eq_refl).
    replace (rlt (val x) (val fzero)) with true by (symmetry; apply rlt_true; change (val fzero) with 0; rewrite E; nra).
    unfold set_p64. rewrite Gp, Es, Gp1. split; [reflexivity|]. split; [|split; [split|]].
    - unfold of_hit. change (h_dbl (fs (start h) Vpx (b64_of_Z (-1))) Vpx) with (b64_of_Z (-1)). now apply ofZ_exact.
    - intros v I. change (fg (fs (start h) Vpx (b64_of_Z (-1))) v = fg h v). cbn [In] in I.
      rewrite fs_other by (intros <-; tauto). unfold start. destruct (Req_EM_T (psq h) 0); [|reflexivity].
      apply fs_other. intros <-. tauto.
    - unfold start. destruct (Req_EM_T (psq h) 0); reflexivity.
    - now apply fs_other.
  Qed.
End P.

(** ---- rounding to integers ---- *)
Lemma py_round_ok (x : b64) : fin x = true -> exists n, py_round x = inr n /\ Rabs (IZR n - val x) <= / 2.
Proof.
  destruct x as [s|s| |s m e B]; intros F; try discriminate.
  - exists 0%Z. split; [reflexivity|]. cbn [B2R]. rewrite Rminus_0_r, Rabs_R0. lra.
  - cbn [py_round B2R].
    assert (K : forall a, Rabs (IZR a - IZR (Zpos m) * pow2 e) <= / 2 ->
      Rabs (IZR (if s then Z.opp a else a) - F2R (beta := radix2) {| Fnum := SpecFloat.cond_Zopp s (Zpos m); Fexp := e |}) <= / 2).
    { intros a H. unfold F2R. cbn [Fnum Fexp]. destruct s; cbn [SpecFloat.cond_Zopp]; [|exact H].
      rewrite !opp_IZR. replace (- IZR a - - IZR (Zpos m) * pow2 e) with (- (IZR a - IZR (Zpos m) * pow2 e)) by ring.
      rewrite Rabs_Ropp. exact H. }
    eexists. split; [reflexivity|]. apply K. clear K F B.
    destruct e as [|e|e].
    + simpl (pow2 0). rewrite Z.pow_0_r, Z.mul_1_r, Rmult_1_r, Rminus_diag_eq, Rabs_R0 by reflexivity. lra.
    + rewrite mult_IZR. change (2 ^ Zpos e)%Z with (radix_val radix2 ^ Zpos e)%Z. rewrite IZR_Zpower by lia.
      rewrite Rminus_diag_eq, Rabs_R0 by reflexivity. lra.
    + cbv zeta. change (- Zneg e)%Z with (Zpos e). set (d := (2 ^ Zpos e)%Z).
      assert (D : (0 < d)%Z) by (apply Z.pow_pos_nonneg; lia).
      assert (ED : pow2 (Zneg e) = / IZR d).
      { change (Zneg e) with (- Zpos e)%Z. rewrite bpow_opp. apply f_equal. unfold d. change 2%Z with (radix_val radix2).
        now rewrite IZR_Zpower by lia. }
      rewrite ED. pose proof (Z.div_mod (Zpos m) d ltac:(lia)) as E. pose proof (Z.mod_pos_bound (Zpos m) d D) as Rb.
      set (q := (Zpos m / d)%Z) in *. set (r := (Zpos m mod d)%Z) in *.
      assert (E2 : IZR (Zpos m) * / IZR d = IZR q + IZR r / IZR d).
      { rewrite E, plus_IZR, mult_IZR. field. apply not_0_IZR. lia. }
      rewrite E2. pose proof (IZR_lt _ _ D) as D'.
      assert (H : forall t, (0 <= 2 * t <= d)%Z -> 0 <= IZR t / IZR d <= / 2).
      { intros t [T1 T2]. apply IZR_le in T1, T2. rewrite mult_IZR in T1, T2. split.
        - apply Rmult_le_pos; [lra|]. left. now apply Rinv_0_lt_compat.
        - apply Rmult_le_reg_r with (IZR d); [exact D'|]. unfold Rdiv. rewrite Rmult_assoc, Rinv_l by lra. lra. }
      assert (Lo : (2 * r <= d)%Z -> Rabs (IZR q - (IZR q + IZR r / IZR d)) <= / 2).
      { intros T. specialize (H r ltac:(lia)). apply Rabs_le. lra. }
      assert (Hi : (d <= 2 * r)%Z -> Rabs (IZR (q + 1) - (IZR q + IZR r / IZR d)) <= / 2).
      { intros T. specialize (H (d - r)%Z ltac:(lia)). rewrite minus_IZR in H. unfold Rdiv in *.
        rewrite Rmult_minus_distr_r, Rinv_r in H by lra. rewrite plus_IZR. apply Rabs_le. lra. }
      destruct (Z.ltb (2 * r) d) eqn:C1; [apply Lo; apply Z.ltb_lt in C1; lia|]. apply Z.ltb_ge in C1.
      destruct (Z.ltb d (2 * r)) eqn:C2; [apply Hi; apply Z.ltb_lt in C2; lia|]. apply Z.ltb_ge in C2.
      destruct (Z.even q); [apply Lo|apply Hi]; lia.
Qed.

Section Check.
  Variable L : PowLib.
  Hypothesis A : accurate L.

  Lemma shell_test_ok h : (forall v, In v [Vpx; Vpy; Vpz; Vmass] -> fin (fg h v) = true /\ scaled 300 (val (fg h v))) ->
    fin (fg h Venergy) = true -> scaled 310 (val (fg h Venergy)) -> exists a b : Z, shell_test L h = inr (Z.eqb a b) /\
    Rabs (IZR a - (psq h + msq h)) <= / 2 + 60 * u * (psq h + msq h) /\ Rabs (IZR b - esq h) <= / 2 + 10 * u * esq h.
  Proof.
    intros M Fe Se. assert (M0 : forall v, In v [Vpx; Vpy; Vpz] -> fin (fg h v) = true /\ scaled 300 (val (fg h v))).
    { intros v I. apply M. cbn in *; tauto. }
    destruct (M Vmass) as [Fm Sm]; [cbn; tauto|].
    destruct (get_p_like L A h M0) as (p & Gp & Fp & Lp). destruct (psq_scaled h (fun v I => proj2 (M0 v I))) as [SP P].
    assert (Sp : scaled 301 (sqrt (psq h))) by (apply scaled_sqrt; [exact P|exact SP]).
    destruct (two_like L A p 12 _ 301 Fp Lp Sp) as [Fp2 Lp2]; [lia|lia|]. rewrite sqrt_sqrt in Lp2 by exact P.
    destruct (two_like L A _ 0 _ 300 Fm (like_refl _) Sm) as [Fm2 Lm2]; [lia|lia|].
    destruct (two_like L A _ 0 _ 310 Fe (like_refl _) Se) as [Fe2 Le2]; [lia|lia|].
    cbn [Nat.add] in *. change (val (fg h Vmass) * val (fg h Vmass)) with (msq h) in *.
    change (val (fg h Venergy) * val (fg h Venergy)) with (esq h) in *.
    assert (Pm : 0 <= msq h) by apply sq_nonneg. assert (Pe : 0 <= esq h) by apply sq_nonneg.
    pose proof (scaled_abs 602 _ ltac:(lia) SP) as BP.
    pose proof (scaled_abs 600 _ ltac:(lia) (scaled_sq _ _ Sm)) as Bm. change (val (fg h Vmass) * val (fg h Vmass)) with (msq h) in Bm.
    assert (B602 : pow2 600 <= pow2 602) by (apply bpow_le; lia).
    destruct (add_like _ _ 29 _ _ 602 Fp2 Fm2 P Pm Lp2 (like_le 5 29 _ _ ltac:(lia) Lm2)) as [Fs Ls]; [exact BP|lra|lia|lia|].
    destruct (py_round_ok _ Fs) as (a & Ra & Ea). destruct (py_round_ok _ Fe2) as (b & Rb & Eb).
    exists a, b. unfold shell_test. rewrite Gp, !py_pow_ok by assumption. rewrite Ra, Rb. split; [reflexivity|].
    apply like_error in Ls; [|apply small_n; lia]. apply like_error in Le2; [|apply small_n; lia].
    cbn [Nat.add] in Ls. replace (INR 30) with 30 in Ls by (rewrite INR_IZR_INZ; reflexivity).
    replace (INR 5) with 5 in Le2 by (rewrite INR_IZR_INZ; reflexivity).
    rewrite (Rabs_right (psq h + msq h)) in Ls by lra. rewrite (Rabs_right (esq h)) in Le2 by lra.
    apply Rabs_le_inv in Ls, Le2, Ea, Eb. split; apply Rabs_le; lra.
  Qed.
End Check.

(** ---- one library ---- *)
Lemma sqrt_plain (x : b64) : fin x = true -> 0 <= val x -> within 900 (val x) -> fin (Bsqrt mode_NE x) = true /\
  exists d, Rabs d <= u /\ val (Bsqrt mode_NE x) = sqrt (val x) * (1 + d).
Proof.
  intros F P W. pose proof (Bsqrt_correct prec64 emax64 _ _ mode_NE x) as (C1 & C2 & _). split.
  - rewrite C2. destruct x as [s|s| |[] m e B]; try reflexivity; try discriminate F.
    exfalso. cbn [B2R SpecFloat.cond_Zopp] in P. apply Rle_not_lt in P. apply P. apply F2R_lt_0. cbn. lia.
  - rewrite C1. apply rnd_normal. apply within_scaled in W; [|exact P]. change (Z.of_nat 900) with (450 + 450)%Z in W.
    apply scaled_sqrt in W; [|exact P]. destruct W as [W|[W _]]; [now left|right]. eapply Rle_trans; [|exact W]. apply bpow_le. lia.
Qed.

Lemma rel_bound r d : 0 <= r -> Rabs d <= 4 * u -> Rabs (r * (1 + d) - r) <= / 2 ^ 51 * r.
Proof.
  intros P D. assert (U : / 2 ^ 51 = 4 * u). { rewrite pow_inv64. unfold u. change 4 with (pow2 2). rewrite <- bpow_plus. reflexivity. }
  rewrite U. replace (r * (1 + d) - r) with (r * d) by ring. rewrite Rabs_mult, (Rabs_right r) by lra. nra.
Qed.

Lemma plain_accurate : accurate plain.
Proof.
  pose proof u_pos as Pu. pose proof u_small as Su. constructor.
  - intros x F P W. destruct (sqrt_plain x F P W) as (F1 & d & D & E). split; [exact F1|].
    change (pow_half plain x) with (Bsqrt (prec := prec64) (emax := emax64) mode_NE x). rewrite E. apply rel_bound; [apply sqrt_pos|lra].
  - intros x F P W. assert (W9 : within 900 (val x)).
    { apply within_scaled; [exact P|]. apply within_scaled in W; [|exact P]. revert W. apply scaled_le. lia. }
    destruct (sqrt_plain x F P W9) as (F1 & d & D & E). apply within_scaled in W; [|exact P]. change (Z.of_nat 620) with 620%Z in W.
    assert (S : scaled 310 (sqrt (val x))) by (apply scaled_sqrt; [exact P|exact W]).
    destruct (mul_like x (Bsqrt mode_NE x) 0 1 _ _ 620 310 F F1 (like_refl _) (like_one _ _ d D E) W S) as [F2 _]; try lia.
    split; [exact F2|]. change (pow_three_halves plain x) with (fmul x (Bsqrt mode_NE x)).
    assert (S2 : scaled 932 (val x * val (Bsqrt mode_NE x))).
    { rewrite E. change 932%Z with (620 + 312)%Z. apply scaled_mul; [exact W|]. change 312%Z with (310 + 2)%Z.
      apply (scaled_le (310 + 1)); [lia|]. apply (scaled_near 310 1); [apply small_n; lia|exact S|now apply near_one]. }
    destruct (mul_ok x (Bsqrt mode_NE x) F F1) as (_ & d2 & D2 & E2).
    { apply Rle_trans with (pow2 932); [apply scaled_abs; [lia|exact S2]|apply bpow_le; lia]. }
    { destruct S2 as [S2|[S2 _]]; [now left|right]. eapply Rle_trans; [|exact S2]. apply bpow_le. lia. }
    rewrite E2, E. replace (val x * (sqrt (val x) * (1 + d)) * (1 + d2)) with (val x * sqrt (val x) * (1 + (d + d2 + d * d2))) by ring.
    apply rel_bound; [apply Rmult_le_pos; [exact P|apply sqrt_pos]|].
    apply Rabs_le_inv in D, D2. apply Rabs_le. nra.
  - intros x F W. assert (S : scaled 450 (val x)).
    { apply within_scaled in W; [|apply Rabs_pos]. destruct W as [W|[W1 W2]].
      - left. destruct (Req_dec (val x) 0) as [Z|Z]; [exact Z|]. apply Rabs_no_R0 in Z. lra.
      - right. rewrite Rabs_Rabsolu in W1, W2. split; assumption. }
    pose proof (scaled_sq _ _ S) as S2. change (450 + 450)%Z with 900%Z in S2.
    destruct (mul_ok x x F F) as (F1 & d & D & E).
    { apply Rle_trans with (pow2 900); [apply scaled_abs; [lia|exact S2]|apply bpow_le; lia]. }
    { destruct S2 as [S2|[S2 _]]; [now left|right]. eapply Rle_trans; [|exact S2]. apply bpow_le. lia. }
    split; [exact F1|]. change (pow_two plain x) with (fmul x x). rewrite E. apply rel_bound; [apply sq_nonneg|lra].
Qed.
