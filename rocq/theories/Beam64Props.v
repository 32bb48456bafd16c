(** Property C101: the emittance of a beam, computed in double precision, against the hits in it. *)
From Coq Require Import Reals ZArith Bool String List Lia Lra Psatz.
From Flocq Require Import Core BinarySingleNaN.
From Verif Require Import FloatProps.
From Verif Require Import Num WeightModel HitcoreModel HitcoreSpec PyLibModel HitPyModel BunchModel BunchSpec MomentModel EllipseModel FloatModel MomentSpec MomentProofs
  FloatArith FloatSpec FloatProofs Bin64Model Bin64Spec Shell64Model Shell64Spec Shell64Proofs Linear64Spec Linear64Proofs Emit64Model Emit64Spec Emit64Proofs Emit64Props Beam64Spec
  Beam64Proofs.
Import ListNotations.
Open Scope string_scope.
Open Scope list_scope.
Open Scope R_scope.

Lemma usual_mid x A eta : is_finite x = true -> / 2 ^ 100 <= A <= 2 ^ 100 -> 0 <= eta <= / 1000 -> Rabs (B2R x - A) <= eta * A -> usual x.
Proof.
  intros F H E B. apply Rabs_le_inv in B. assert (P : 0 < / 2 ^ 100) by (apply Rinv_0_lt_compat, pow_lt; lra).
  assert (L : A / 2 <= B2R x <= 2 * A) by nra. split; [exact F|]. right. rewrite Rabs_right by lra.
  assert (T : 2 * 2 ^ 100 <= 2 ^ 200) by (change (2 * 2 ^ 100) with (2 ^ 101); apply Rle_pow; [lra|lia]).
  split; [|lra]. apply Rle_trans with (/ 2 ^ 100 / 2); [|lra]. unfold Rdiv. rewrite <- Rinv_mult. apply Rinv_le_contravar; [|lra].
  apply Rmult_lt_0_compat; [apply pow_lt|]; lra.
Qed.

Lemma sqrt_close th : -1 / 2 <= th <= 1 / 2 -> exists t, sqrt (1 + th) = 1 + t /\ Rabs t <= Rabs th.
Proof.
  intros H. exists (sqrt (1 + th) - 1). split; [ring|]. pose proof (sqrt_pos (1 + th)) as P. pose proof (sqrt_sqrt (1 + th) ltac:(lra)) as S.
  set (s := sqrt (1 + th)) in *. replace th with ((s - 1) * (s + 1)) at 1 by lra. rewrite Rabs_mult, (Rabs_right (s + 1)) by lra.
  pose proof (Rabs_pos (s - 1)). nra.
Qed.

(** What the reported covariances are worth. *)
Lemma beam_facts extra (prog : list (WOp B64Num)) (b : Bunch) (q p : string) (rho : R) :
  let w := wrun prog in let hits := b_hits b in let n := List.length hits in
  let A := true_cov w hits q q in let C := true_cov w hits q p in let D := true_cov w hits p p in let eta := cov_error n rho in
  never_switches prog -> in_step b -> sane_weights w hits ->
  (forall v l, In v [q; p] -> In l hits -> float64 w v l /\ sane_size (num64 w v l)) ->
  (forall v m l, In v [q; p] -> mean64 extra w b v = inr m -> In l hits -> sane_size (num64 w v l - B2R m)) ->
  / 2 ^ 100 <= A <= 2 ^ 100 -> / 2 ^ 100 <= D <= 2 ^ 100 -> 0 < A * D - C * C ->
  0 <= rho <= 1 -> near_axis w hits rho q -> near_axis w hits rho p -> spread A C D * eta <= / 1000 ->
  exists a c d : b64, moment extra no_fixed w b [q; q] [] = inr a /\ moment extra no_fixed w b [q; p] [] = inr c /\
    moment extra no_fixed w b [p; p] [] = inr d /\ usual a /\ usual d /\
    Rabs (value a - A) <= eta * A /\ Rabs (value d - D) <= eta * D /\ Rabs (value c - C) <= eta * (sqrt A * sqrt D) /\
    20 * u <= eta /\ 1 <= spread A C D /\
    0 < value a * value d - value c * value c /\ spread (value a) (value c) (value d) <= 2 ^ 40 /\
    spread (value a) (value c) (value d) <= 11 / 10 * spread A C D /\
    exists t, Rabs t <= 41 / 10 * (spread A C D * eta) /\ sqrt (value a * value d - value c * value c) = sqrt (A * D - C * C) * (1 + t).
Proof.
  intros w hits n A C D eta Hn Hs S0 HF HM RA RD PD Pr Nq Np HK.
  assert (P100 : 0 < / 2 ^ 100) by (apply Rinv_0_lt_compat, pow_lt; lra).
  assert (PA : 0 < A) by lra. assert (PDD : 0 < D) by lra.
  assert (Each : forall u v, In u [q; p] -> In v [q; p] -> exists x : b64, moment extra no_fixed w b [u; v] [] = inr x /\ is_finite x = true /\
      Rabs (B2R x - true_cov w hits u v) <= cov_error n rho * (sqrt (true_cov w hits u u) * sqrt (true_cov w hits v v))).
  { intros u v Hu Hv. apply (cov_close extra prog b Hn Hs S0 rho Pr).
    - intros x l [<- |[<- |[]]] Hl; apply HF; assumption.
    - intros x m l [<- |[<- |[]]]; apply HM; assumption.
    - assert (T : forall x, In x [q; p] -> 0 < true_cov w hits x x /\ near_axis w hits rho x) by (intros x [<- |[<- |[]]]; split; assumption).
      intros x [<- |[<- |[]]]; apply T; assumption. }
  assert (I1 : In q [q; p]) by (left; reflexivity). assert (I2 : In p [q; p]) by (right; left; reflexivity).
  destruct (Each q q I1 I1) as (a & Ma & Fa & Ba). destruct (Each q p I1 I2) as (c & Mc & Fc & Bc). destruct (Each p p I2 I2) as (d & Md & Fd & Bd).
  fold A in Ba, Bc. fold C in Bc. fold D in Bc, Bd. rewrite sqrt_sqrt in Ba, Bd by lra. fold eta in Ba, Bc, Bd.
  assert (E0 : 20 * u <= eta).
  { unfold eta, cov_error, units. assert (INR (2 * n + 5) >= 5) by (rewrite plus_INR; pose proof (pos_INR (2 * n)); simpl (INR 5); lra).
    rewrite <- unit_u. replace (/ 2 ^ 53) with (/ 2 ^ 52 / 2) by (change (2 ^ 53) with (2 * 2 ^ 52); rewrite Rinv_mult; field; apply pow_nonzero; lra).
    assert (0 < / 2 ^ 52) by (apply Rinv_0_lt_compat, pow_lt; lra). pose proof (sq_nonneg rho). nra. }
  pose proof u_pos as Pu.
  destruct (nearby_det A C D (B2R a) (B2R c) (B2R d) eta PA PDD PD ltac:(lra) HK Ba Bd Bc) as (th & Hth & Eth & Hsp & K1).
  set (K := spread A C D) in *. assert (E1 : 0 <= eta <= / 1000) by (split; [lra|nra]).
  assert (T2 : - (41 / 10000) <= th <= 41 / 10000) by (apply Rabs_le_inv; lra).
  assert (Pd : 0 < value a * value d - value c * value c) by (rewrite Eth; apply Rmult_lt_0_compat; lra).
  assert (K40 : spread (value a) (value c) (value d) <= 2 ^ 40).
  { apply Rle_trans with (1 := Hsp). assert (K * (20 * u) <= / 1000) by (apply Rle_trans with (K * eta); [apply Rmult_le_compat_l; lra|exact HK]).
    rewrite <- unit_u in H. assert (K <= 2 ^ 53 / 20000).
    { apply Rmult_le_reg_r with (20 * / 2 ^ 53); [assert (0 < / 2 ^ 53) by (apply Rinv_0_lt_compat, pow_lt; lra); lra|].
      replace (2 ^ 53 / 20000 * (20 * / 2 ^ 53)) with (/ 1000) by (field; apply pow_nonzero; lra). exact H. }
    replace (2 ^ 53) with (8192 * 2 ^ 40) in H0 by ring. lra. }
  assert (Ua : usual a) by exact (usual_mid a A eta Fa RA E1 Ba).
  assert (Ud : usual d) by exact (usual_mid d D eta Fd RD E1 Bd).
  destruct (sqrt_close th ltac:(lra)) as (t & Et & Bt).
  exists a, c, d. repeat (split; [assumption|]). exists t. split; [lra|]. rewrite Eth, sqrt_mult, Et by lra. reflexivity.
Qed.

(** ---------------------------------------------------------------- C101 *)

(** C101.  The emittance of one axis that the bunch reports is the exact emittance of its hits, up to six times the
    error of the covariances times how close to singular they are. *)
Theorem C101_emittance :
  forall det pow extra (prog : list (WOp B64Num)) (b : Bunch) (q p : string) (mass : b64) (rho : R),
    let w := wrun prog in let hits := b_hits b in let n := List.length hits in
    let A := true_cov w hits q q in let C := true_cov w hits q p in let D := true_cov w hits p p in
    good_det det -> good_root pow -> In (q, p) pairs ->
    never_switches prog -> in_step b -> sane_weights w hits ->
    (forall v l, In v [q; p] -> In l hits -> float64 w v l /\ sane_size (num64 w v l)) ->
    (forall v m l, In v [q; p] -> mean64 extra w b v = inr m -> In l hits -> sane_size (num64 w v l - B2R m)) ->
    (forall c, moment extra no_fixed w b [q; p] [] = inr c -> usual c) ->
    first64 w b "mass" = inr mass -> everyday mass -> 0 < value mass ->
    / 2 ^ 100 <= A <= 2 ^ 100 -> / 2 ^ 100 <= D <= 2 ^ 100 -> 0 < A * D - C * C ->
    0 <= rho <= 1 -> near_axis w hits rho q -> near_axis w hits rho p ->
    spread A C D * cov_error n rho <= / 1000 ->
    exists e : b64, emittance64 det pow extra false w b [q] None = inr e /\ finite e = true /\
      let exact := sqrt (A * D - C * C) / value mass in
      Rabs (value e - exact) <= 6 * (spread A C D * cov_error n rho) * exact.
Proof.
  intros det pow extra prog b q p mass rho w hits n A C D Gd Gr Hq Hn Hs S0 HF HM HC Hm Em Pm RA RD PD Pr Nq Np HK.
  destruct (beam_facts extra prog b q p rho Hn Hs S0 HF HM RA RD PD Pr Nq Np HK)
    as (a & c & d & Ma & Mc & Md & Ua & Ud & Ba & Bd & Bc & E0 & K1 & Pd & K40 & Hsp & t & Bt & Et).
  fold w hits n A C D in Ma, Mc, Md, Ba, Bd, Bc, E0, K1, Pd, K40, Hsp, Bt, Et. set (eta := cov_error n rho) in *. set (K := spread A C D) in *. pose proof u_pos as Pu.
  destruct (C100_emittance det pow extra w b q p a c d mass Gd Gr Hq Ma Mc Md Hm Ua (HC c Mc) Ud Em Pm Pd K40) as (e & E & F & B).
  exists e. split; [exact E|]. split; [exact F|]. cbv zeta in B |- *. rewrite unit_u, Et in B.
  set (s := sqrt (A * D - C * C)) in *. assert (Ps : 0 < s) by (apply sqrt_lt_R0, PD).
  set (ex := s / value mass). assert (Pe : 0 < ex) by (apply Rdiv_lt_0_compat; assumption).
  replace (s * (1 + t) / value mass) with (ex * (1 + t)) in B by (unfold ex; field; lra).
  assert (T3 : - (41 / 10000) <= t <= 41 / 10000) by (apply Rabs_le_inv; lra).
  replace (value e - ex) with ((value e - ex * (1 + t)) + ex * t) by ring. eapply Rle_trans; [apply Rabs_triang|].
  rewrite (Rabs_mult ex t), (Rabs_right ex) by lra.
  set (k := spread (value a) (value c) (value d)) in *.
  assert (S1 : (8 * k + 16) * u <= 13 / 10 * (K * eta)).
  { apply Rle_trans with (26 * K * u); [nra|]. apply Rle_trans with (13 / 10 * K * (20 * u)); [right; field|]. rewrite Rmult_assoc. 
    apply Rmult_le_compat_l; [lra|]. apply Rmult_le_compat_l; lra. }
  assert (0 <= K * eta) by (apply Rmult_le_pos; lra).
  assert (S2 : (8 * k + 16) * u * (ex * (1 + t)) <= 131 / 100 * (K * eta) * ex).
  { apply Rle_trans with (13 / 10 * (K * eta) * (ex * (1 + t))); [apply Rmult_le_compat_r; [apply Rmult_le_pos; lra|exact S1]|].
    assert (0 <= K * eta * ex) by (apply Rmult_le_pos; lra). nra. }
  assert (S3 : ex * Rabs t <= 41 / 10 * (K * eta) * ex) by (rewrite Rmult_comm; apply Rmult_le_compat_r; lra).
  assert (0 <= K * eta * ex) by (apply Rmult_le_pos; lra). lra.
Qed.
Print Assumptions C101_emittance.

(** A quotient of two quantities known to a few parts of [x], computed to a few parts of [x]. *)
Lemma quot_close (x g z0 z y e t T : R) :
  0 <= x <= / 1000 -> 0 <= g -> Rabs z0 <= g -> Rabs e <= x * g -> Rabs t <= 41 / 10 * x ->
  z = (z0 + e) / (1 + t) -> Rabs (y - z) <= T * Rabs z -> 0 <= T <= 22 / 10 * x -> Rabs (y - z0) <= 8 * x * g.
Proof.
  intros Hx Hg B0 Be Bt Ez By HT.
  assert (T3 : - (41 / 10000) <= t <= 41 / 10000) by (apply Rabs_le_inv; lra).
  assert (Xg : 0 <= x * g <= / 1000 * g) by (split; [apply Rmult_le_pos; lra|apply Rmult_le_compat_r; lra]).
  assert (D1 : Rabs (z - z0) <= 52 / 10 * (x * g)).
  { replace (z - z0) with ((e - t * z0) * / (1 + t)) by (rewrite Ez; field; lra). rewrite Rabs_mult, Rabs_inv, (Rabs_right (1 + t)) by lra.
    apply Rmult_le_reg_r with (1 + t); [lra|]. rewrite Rmult_assoc, Rinv_l, Rmult_1_r by lra.
    eapply Rle_trans; [apply (Rabs_triang e (- (t * z0)))|]. rewrite Rabs_Ropp, Rabs_mult.
    assert (Rabs t * Rabs z0 <= 41 / 10 * x * g) by (apply Rmult_le_compat; auto using Rabs_pos). nra. }
  assert (Bz : Rabs z <= 1006 / 1000 * g).
  { replace z with ((z - z0) + z0) by ring. eapply Rle_trans; [apply Rabs_triang|]. lra. }
  replace (y - z0) with ((y - z) + (z - z0)) by ring. eapply Rle_trans; [apply Rabs_triang|].
  assert (T * Rabs z <= 22 / 10 * x * (1006 / 1000 * g)) by (apply Rmult_le_compat; auto using Rabs_pos; lra).
  nra.
Qed.

(** C101.  The same for the Twiss parameters, for the mean momentum the bunch reports: beta and gamma to a few parts of
    [spread] times the error of the covariances, alpha to as much of the largest value it could have. *)
Theorem C101_twiss :
  forall det pow extra (prog : list (WOp B64Num)) (b : Bunch) (q p : string) (mass P : b64) (rho : R),
    let w := wrun prog in let hits := b_hits b in let n := List.length hits in
    let A := true_cov w hits q q in let C := true_cov w hits q p in let D := true_cov w hits p p in
    good_det det -> good_root pow -> In (q, p) pairs ->
    never_switches prog -> in_step b -> sane_weights w hits ->
    (forall v l, In v [q; p] -> In l hits -> float64 w v l /\ sane_size (num64 w v l)) ->
    (forall v m l, In v [q; p] -> mean64 extra w b v = inr m -> In l hits -> sane_size (num64 w v l - B2R m)) ->
    (forall c, moment extra no_fixed w b [q; p] [] = inr c -> usual c) ->
    first64 w b "mass" = inr mass -> everyday mass -> 0 < value mass -> mean64 extra w b "p" = inr P -> everyday P ->
    / 2 ^ 100 <= A <= 2 ^ 100 -> / 2 ^ 100 <= D <= 2 ^ 100 -> 0 < A * D - C * C ->
    0 <= rho <= 1 -> near_axis w hits rho q -> near_axis w hits rho p ->
    spread A C D * cov_error n rho <= / 1000 ->
    exists beta gamma alpha : b64,
      beta64 det pow extra false w b [q] = inr beta /\ gamma64 det pow extra false w b [q] = inr gamma /\
      alpha64 det pow extra false w b [q] = inr alpha /\
      finite beta = true /\ finite gamma = true /\ finite alpha = true /\
      let root := sqrt (A * D - C * C) in
      let error := 8 * (spread A C D * cov_error n rho) in
      Rabs (value beta - A * value P / root) <= error * Rabs (A * value P / root) /\
      Rabs (value gamma - D / (value P * root)) <= error * Rabs (D / (value P * root)) /\
      Rabs (value alpha - - (C / root)) <= error * (sqrt A * sqrt D / root).
Proof.
  intros det pow extra prog b q p mass P rho w hits n A C D Gd Gr Hq Hn Hs S0 HF HM HC Hm Em Pm HP EP RA RD PD Pr Nq Np HK.
  destruct (beam_facts extra prog b q p rho Hn Hs S0 HF HM RA RD PD Pr Nq Np HK)
    as (a & c & d & Ma & Mc & Md & Ua & Ud & Ba & Bd & Bc & E0 & K1 & Pd & K40 & Hsp & t & Bt & Et).
  fold w hits n A C D in Ma, Mc, Md, Ba, Bd, Bc, E0, K1, Pd, K40, Hsp, Bt, Et. set (eta := cov_error n rho) in *. set (K := spread A C D) in *. pose proof u_pos as Pu.
  destruct (C100_twiss det pow extra w b q p a c d mass P Gd Gr Hq Ma Mc Md Hm HP Ua (HC c Mc) Ud Em Pm EP Pd K40)
    as (be & ga & al & Eb & Eg & Ea & Fb & Fg & Fa & B).
  exists be, ga, al. do 6 (split; [assumption|]). cbv zeta in B |- *. rewrite unit_u, Et in B. destruct B as (B1 & B2 & B3 & _).
  clear Eb Eg Ea Fb Fg Fa Ma Mc Md HM HF Gd Gr Hn S0 HC Hm HP Nq Np.
  set (k := spread (value a) (value c) (value d)) in *. set (s := sqrt (A * D - C * C)) in *. set (x := K * eta) in *.
  assert (Ps : 0 < s) by (apply sqrt_lt_R0, PD).
  assert (E1 : eta <= x) by (unfold x; nra).
  assert (X : 0 <= x <= / 1000) by (split; [unfold x; apply Rmult_le_pos; lra|exact HK]).
  assert (T3 : - (41 / 10000) <= t <= 41 / 10000) by (apply Rabs_le_inv; lra).
  assert (k0 : 0 <= k) by (unfold k, spread, Rdiv; apply Rmult_le_pos; [pose proof (Rle_0_sqr (value c)) as Q; unfold Rsqr in Q; lra|left; apply Rinv_0_lt_compat, Pd]).
  assert (TT : 0 <= 40 * k * u <= 22 / 10 * x).
  { split; [apply Rmult_le_pos; lra|]. unfold x. apply Rle_trans with (44 * K * u); [nra|].
    apply Rle_trans with (22 / 10 * K * (20 * u)); [right; field|]. rewrite Rmult_assoc. apply Rmult_le_compat_l; [lra|]. apply Rmult_le_compat_l; lra. }
  assert (NP : value P <> 0) by (destruct EP as (_ & EP'); intros Z; rewrite Z, Rabs_R0 in EP'; assert (0 < / 2 ^ 60) by (apply Rinv_0_lt_compat, pow_lt; lra); lra).
  split; [|split].
  - eapply quot_close with (z := value a * value P / (s * (1 + t))) (e := (value a - A) * value P / s) (t := t) (T := 40 * k * u); try assumption; try lra.
    + apply Rabs_pos.
    + replace ((value a - A) * value P / s) with ((value a - A) * (value P / s)) by (field; lra).
      replace (A * value P / s) with (A * (value P / s)) by (field; lra). rewrite !Rabs_mult, (Rabs_right A), <- Rmult_assoc by lra.
      apply Rmult_le_compat_r; [apply Rabs_pos|]. apply Rle_trans with (eta * A); [exact Ba|apply Rmult_le_compat_r; lra].
    + field. lra.
  - eapply quot_close with (z := value d / (value P * (s * (1 + t)))) (e := (value d - D) / (value P * s)) (t := t) (T := 40 * k * u); try assumption; try lra.
    + apply Rabs_pos.
    + unfold Rdiv. rewrite !Rabs_mult, (Rabs_right D), <- Rmult_assoc by lra.
      apply Rmult_le_compat_r; [apply Rabs_pos|]. apply Rle_trans with (eta * D); [exact Bd|apply Rmult_le_compat_r; lra].
    + field. repeat split; lra.
  - assert (Pg : 0 < sqrt A * sqrt D) by (apply Rmult_lt_0_compat; apply sqrt_lt_R0; lra).
    assert (Cg : Rabs C <= sqrt A * sqrt D).
    { rewrite <- sqrt_mult by lra. rewrite <- (sqrt_Rsqr_abs C). apply sqrt_le_1_alt. unfold Rsqr. lra. }
    assert (Is : 0 < / s) by (apply Rinv_0_lt_compat, Ps).
    eapply quot_close with (z := - (value c / (s * (1 + t)))) (e := - ((value c - C) / s)) (t := t) (T := 40 * k * u); try assumption; try lra.
    + unfold Rdiv. apply Rmult_le_pos; lra.
    + rewrite Rabs_Ropp. unfold Rdiv. rewrite Rabs_mult, (Rabs_right (/ s)) by lra. apply Rmult_le_compat_r; lra.
    + rewrite Rabs_Ropp. unfold Rdiv. rewrite Rabs_mult, (Rabs_right (/ s)), <- Rmult_assoc by lra. apply Rmult_le_compat_r; [lra|].
      apply Rle_trans with (eta * (sqrt A * sqrt D)); [exact Bc|apply Rmult_le_compat_r; lra].
    + field. lra.
    + rewrite (Rabs_Ropp (value c / (s * (1 + t)))). exact B3.
Qed.
Print Assumptions C101_twiss.

(** ---- reading the examples ---- *)
Lemma read_z (prog : list (WOp B64Num)) l k v : hit_get (wrun prog) l v = Some (z64 k) ->
  is_finite_SF (B2SF (b64_of_Z k)) = true -> float64 (wrun prog) v l /\ num64 (wrun prog) v l = value (b64_of_Z k).
Proof. intros H F. split; [exists (b64_of_Z k); split; [exact H|apply fin_SF, F]|]. unfold num64. rewrite H. reflexivity. Qed.
Lemma read_w (prog : list (WOp B64Num)) l : hit_get (wrun prog) l "weight" = Some (@PFloat B64Num (Bmult mode_NE (b64_of_Z 1) (b64_of_Z 1))) ->
  float64 (wrun prog) "weight" l /\ num64 (wrun prog) "weight" l = 1.
Proof.
  intros H. split; [exists (Bmult mode_NE (b64_of_Z 1) (b64_of_Z 1)); split; [exact H|apply fin_SF; vm_compute; reflexivity]|].
  unfold num64. rewrite H. b64_val. lra.
Qed.
Lemma val_m1 : value (b64_of_Z (-1)) = -1. Proof. b64_val. lra. Qed.
Lemma val_m2 : value (b64_of_Z (-2)) = -2. Proof. b64_val. lra. Qed.
Lemma val_0 : value (b64_of_Z 0) = 0. Proof. b64_val. lra. Qed.
Lemma val_1 : value (b64_of_Z 1) = 1. Proof. b64_val. lra. Qed.
Lemma val_2 : value (b64_of_Z 2) = 2. Proof. b64_val. lra. Qed.

Lemma ones_sane (prog : list (WOp B64Num)) hits : hits <> [] -> (List.length hits <= 10)%nat ->
  (forall l, In l hits -> float64 (wrun prog) "weight" l /\ num64 (wrun prog) "weight" l = 1) -> sane_weights (wrun prog) hits.
Proof.
  intros Ne Len H. assert (P : 1 <= 2 ^ 100) by (apply pow_R1_Rle; lra).
  split; [|split].
  - intros l Hl. destruct (H l Hl) as [F V]. split; [exact F|]. rewrite V. split; [|exact P]. rewrite <- Rinv_1. apply Rinv_le_contravar; lra.
  - apply Rle_trans with (INR 10); [apply le_INR, Len|]. simpl. lra.
  - unfold weight64. destruct hits as [|l r]; [contradiction|]. cbn [rsum]. rewrite (proj2 (H l (or_introl eq_refl))).
    assert (0 <= rsum (num64 (wrun prog) "weight") r) by (apply rsum_nonneg; intros x Hx; rewrite (proj2 (H x (or_intror Hx))); lra).
    assert (/ 10 ^ 8 <= 1) by (rewrite <- Rinv_1; apply Rinv_le_contravar; lra). lra.
Qed.

Lemma four_w : forall l, In l (b_hits ex_four) -> float64 (wrun ex_emit) "weight" l /\ num64 (wrun ex_emit) "weight" l = 1.
Proof. intros l [<- |[<- |[<- |[<- |[]]]]]; apply read_w; reflexivity. Qed.
Lemma four_x0 : float64 (wrun ex_emit) "x" 0 /\ num64 (wrun ex_emit) "x" 0 = -1. Proof. rewrite <- val_m1. apply read_z; [reflexivity|vm_compute; reflexivity]. Qed.
Lemma four_x1 : float64 (wrun ex_emit) "x" 1 /\ num64 (wrun ex_emit) "x" 1 = 1. Proof. rewrite <- val_1. apply read_z; [reflexivity|vm_compute; reflexivity]. Qed.
Lemma four_x2 : float64 (wrun ex_emit) "x" 2 /\ num64 (wrun ex_emit) "x" 2 = -1. Proof. rewrite <- val_m1. apply read_z; [reflexivity|vm_compute; reflexivity]. Qed.
Lemma four_x3 : float64 (wrun ex_emit) "x" 3 /\ num64 (wrun ex_emit) "x" 3 = 1. Proof. rewrite <- val_1. apply read_z; [reflexivity|vm_compute; reflexivity]. Qed.
Lemma four_p0 : float64 (wrun ex_emit) "px" 0 /\ num64 (wrun ex_emit) "px" 0 = -2. Proof. rewrite <- val_m2. apply read_z; [reflexivity|vm_compute; reflexivity]. Qed.
Lemma four_p1 : float64 (wrun ex_emit) "px" 1 /\ num64 (wrun ex_emit) "px" 1 = 0. Proof. rewrite <- val_0. apply read_z; [reflexivity|vm_compute; reflexivity]. Qed.
Lemma four_p2 : float64 (wrun ex_emit) "px" 2 /\ num64 (wrun ex_emit) "px" 2 = 0. Proof. rewrite <- val_0. apply read_z; [reflexivity|vm_compute; reflexivity]. Qed.
Lemma four_p3 : float64 (wrun ex_emit) "px" 3 /\ num64 (wrun ex_emit) "px" 3 = 2. Proof. rewrite <- val_2. apply read_z; [reflexivity|vm_compute; reflexivity]. Qed.

Lemma four_average f : average64 (wrun ex_emit) (b_hits ex_four) f = (f 0%nat + f 1%nat + f 2%nat + f 3%nat) / 4.
Proof.
  unfold average64, weight64. change (b_hits ex_four) with [0%nat; 1%nat; 2%nat; 3%nat]. cbn [rsum].
  rewrite (proj2 (four_w 0%nat ltac:(left; reflexivity))), (proj2 (four_w 1%nat ltac:(right; left; reflexivity))),
    (proj2 (four_w 2%nat ltac:(right; right; left; reflexivity))), (proj2 (four_w 3%nat ltac:(right; right; right; left; reflexivity))). field.
Qed.
Lemma four_cov : true_cov (wrun ex_emit) (b_hits ex_four) "x" "x" = 1 /\ true_cov (wrun ex_emit) (b_hits ex_four) "x" "px" = 1 /\
  true_cov (wrun ex_emit) (b_hits ex_four) "px" "px" = 2.
Proof.
  unfold true_cov. rewrite !four_average, (proj2 four_x0), (proj2 four_x1), (proj2 four_x2), (proj2 four_x3),
    (proj2 four_p0), (proj2 four_p1), (proj2 four_p2), (proj2 four_p3). repeat split; field.
Qed.
Lemma four_mean v m : In v ["x"; "px"] -> mean64 with_p (wrun ex_emit) ex_four v = inr m -> value m = 0.
Proof.
  intros Hv H. assert (V : value (right64 (mean64 with_p (wrun ex_emit) ex_four v)) = 0) by (destruct Hv as [<- |[<- |[]]]; b64_val; lra).
  rewrite H in V. exact V.
Qed.
Lemma four_reads v l : In v ["x"; "px"] -> In l (b_hits ex_four) -> float64 (wrun ex_emit) v l /\ sane_size (num64 (wrun ex_emit) v l).
Proof.
  assert (S1 : forall r, / 1000 <= Rabs r <= 1000 -> sane_size r) by exact size_ok.
  intros [<- |[<- |[]]] [<- |[<- |[<- |[<- |[]]]]];
    (split; [first [apply four_x0|apply four_x1|apply four_x2|apply four_x3|apply four_p0|apply four_p1|apply four_p2|apply four_p3]|]).
  - rewrite (proj2 four_x0). apply S1. rewrite Rabs_left; lra.
  - rewrite (proj2 four_x1). apply S1. rewrite Rabs_right; lra.
  - rewrite (proj2 four_x2). apply S1. rewrite Rabs_left; lra.
  - rewrite (proj2 four_x3). apply S1. rewrite Rabs_right; lra.
  - rewrite (proj2 four_p0). apply S1. rewrite Rabs_left; lra.
  - rewrite (proj2 four_p1). left. reflexivity.
  - rewrite (proj2 four_p2). left. reflexivity.
  - rewrite (proj2 four_p3). apply S1. rewrite Rabs_right; lra.
Qed.
Lemma tiny_units k : (k <= 16)%nat -> units k <= / 2 ^ 48.
Proof.
  intros H. unfold units. apply Rle_trans with (16 * / 2 ^ 52).
  - apply Rmult_le_compat_r; [left; apply Rinv_0_lt_compat, pow_lt; lra|]. apply le_INR in H. simpl (INR 16) in H. lra.
  - change (2 ^ 52) with (2 * (2 * (2 * (2 * 2 ^ 48)))). right. field; try (apply pow_nonzero; lra).
Qed.

(** The emittance of the four hits is one half to a relative error below 2^-40. *)
Example C101_emittance_ex : exists e : b64, emittance64 lu_det root_plain with_p false (wrun ex_emit) ex_four ["x"] None = inr e /\
  finite e = true /\ Rabs (value e - / 2) <= / 2 ^ 40.
Proof.
  destruct ex_all as (a & c & d & mass & P & _ & Hc & _ & M & _ & _ & Qc & _ & Qm & _). destruct four_cov as (VA & VC & VD).
  assert (P48 : 0 < / 2 ^ 48) by (apply Rinv_0_lt_compat, pow_lt; lra). assert (P48' : / 2 ^ 48 <= / 4096) by (apply Rinv_le_contravar; lra).
  assert (S2 : 1 <= sqrt 2) by (rewrite <- sqrt_1 at 1; apply sqrt_le_1; lra).
  assert (U11 : units 11 <= / 2 ^ 48) by (apply tiny_units; lia). assert (U13 : units 13 <= / 2 ^ 48) by (apply tiny_units; lia).
  assert (U0 : 0 <= units 11) by (unfold units; apply Rmult_le_pos; [apply pos_INR|left; apply Rinv_0_lt_compat, pow_lt; lra]).
  assert (CE : cov_error 4 (/ 2 ^ 48) <= 3 * / 2 ^ 48) by (unfold cov_error; change (2 * 4 + 5)%nat with 13%nat; nra).
  assert (R1 : / 2 ^ 100 <= 1 <= 2 ^ 100).
  { assert (1 <= 2 ^ 100) by (apply pow_R1_Rle; lra). split; [|lra]. rewrite <- Rinv_1. apply Rinv_le_contravar; lra. }
  assert (R2 : / 2 ^ 100 <= 2 <= 2 ^ 100) by (assert (2 ^ 1 <= 2 ^ 100) by (apply Rle_pow; [lra|lia]); lra).
  destruct (C101_emittance lu_det root_plain with_p ex_emit ex_four "x" "px" mass (/ 2 ^ 48) lu_good root_good (or_introl eq_refl)) as (e & E & F & B).
  - repeat constructor.
  - reflexivity.
  - apply ones_sane; [discriminate|simpl; lia|exact four_w].
  - exact four_reads.
  - intros v m l Hv Hm Hl. change (B2R m) with (value m). rewrite (four_mean v m Hv Hm), Rminus_0_r. apply four_reads; assumption.
  - intros c' Hc'. assert (X : inr c = @inr MErr b64 c') by (rewrite <- Hc; exact Hc'). injection X as <-. apply (usual_of _ _ Qc); lra.
  - exact M.
  - apply (everyday_of _ _ Qm); lra.
  - rewrite (proj2 Qm). lra.
  - rewrite VA. exact R1.
  - rewrite VD. exact R2.
  - rewrite VA, VC, VD. lra.
  - lra.
  - unfold near_axis. rewrite VA, sqrt_1, four_average, (proj2 four_x0), (proj2 four_x1), (proj2 four_x2), (proj2 four_x3).
    rewrite (Rabs_left (-1)), (Rabs_right 1) by lra. change (2 * List.length (b_hits ex_four) + 3)%nat with 11%nat. lra.
  - unfold near_axis. rewrite VD, four_average, (proj2 four_p0), (proj2 four_p1), (proj2 four_p2), (proj2 four_p3).
    rewrite (Rabs_left (-2)), (Rabs_right 2), Rabs_R0 by lra. change (2 * List.length (b_hits ex_four) + 3)%nat with 11%nat. nra.
  - rewrite VA, VC, VD, spread_112. change (List.length (b_hits ex_four)) with 4%nat. assert (/ 2 ^ 48 <= / 16384) by (apply Rinv_le_contravar; lra). lra.
  - exists e. split; [exact E|]. split; [exact F|]. cbv zeta in B. rewrite VA, VC, VD, spread_112, (proj2 Qm) in B.
    replace (1 * 2 - 1 * 1) with 1 in B by ring. rewrite sqrt_1 in B. replace (1 / 2) with (/ 2) in B by field.
    change (List.length (b_hits ex_four)) with 4%nat in B. apply Rle_trans with (1 := B).
    replace (/ 2 ^ 40) with (256 * / 2 ^ 48); [lra|]. change (2 ^ 48) with (2 * (2 * (2 * (2 * (2 * (2 * (2 * (2 * 2 ^ 40)))))))). field; try (apply pow_nonzero; lra).
Qed.

(** And beta 1, gamma 2, alpha -1. *)
Example C101_twiss_ex : exists beta gamma alpha : b64,
  beta64 lu_det root_plain with_p false (wrun ex_emit) ex_four ["x"] = inr beta /\
  gamma64 lu_det root_plain with_p false (wrun ex_emit) ex_four ["x"] = inr gamma /\
  alpha64 lu_det root_plain with_p false (wrun ex_emit) ex_four ["x"] = inr alpha /\
  Rabs (value beta - 1) <= / 2 ^ 40 /\ Rabs (value gamma - 2) <= / 2 ^ 40 /\ Rabs (value alpha - -1) <= / 2 ^ 40.
Proof.
  destruct ex_all as (a & c & d & mass & P & _ & Hc & _ & M & HP & _ & Qc & _ & Qm & Qp). destruct four_cov as (VA & VC & VD).
  assert (P48 : 0 < / 2 ^ 48) by (apply Rinv_0_lt_compat, pow_lt; lra). assert (P48' : / 2 ^ 48 <= / 4096) by (apply Rinv_le_contravar; lra).
  assert (S2 : 1 <= sqrt 2) by (rewrite <- sqrt_1 at 1; apply sqrt_le_1; lra).
  assert (U11 : units 11 <= / 2 ^ 48) by (apply tiny_units; lia). assert (U13 : units 13 <= / 2 ^ 48) by (apply tiny_units; lia).
  assert (U0 : 0 <= units 11) by (unfold units; apply Rmult_le_pos; [apply pos_INR|left; apply Rinv_0_lt_compat, pow_lt; lra]).
  assert (CE : cov_error 4 (/ 2 ^ 48) <= 3 * / 2 ^ 48) by (unfold cov_error; change (2 * 4 + 5)%nat with 13%nat; nra).
  assert (R1 : / 2 ^ 100 <= 1 <= 2 ^ 100).
  { assert (1 <= 2 ^ 100) by (apply pow_R1_Rle; lra). split; [|lra]. rewrite <- Rinv_1. apply Rinv_le_contravar; lra. }
  assert (R2 : / 2 ^ 100 <= 2 <= 2 ^ 100) by (assert (2 ^ 1 <= 2 ^ 100) by (apply Rle_pow; [lra|lia]); lra).
  destruct (C101_twiss lu_det root_plain with_p ex_emit ex_four "x" "px" mass P (/ 2 ^ 48) lu_good root_good (or_introl eq_refl)) as (be & ga & al & Eb & Eg & Ea & _ & _ & _ & B).
  - repeat constructor.
  - reflexivity.
  - apply ones_sane; [discriminate|simpl; lia|exact four_w].
  - exact four_reads.
  - intros v m l Hv Hm Hl. change (B2R m) with (value m). rewrite (four_mean v m Hv Hm), Rminus_0_r. apply four_reads; assumption.
  - intros c' Hc'. assert (X : inr c = @inr MErr b64 c') by (rewrite <- Hc; exact Hc'). injection X as <-. apply (usual_of _ _ Qc); lra.
  - exact M.
  - apply (everyday_of _ _ Qm); lra.
  - rewrite (proj2 Qm). lra.
  - exact HP.
  - apply (everyday_of _ _ Qp); lra.
  - rewrite VA. exact R1.
  - rewrite VD. exact R2.
  - rewrite VA, VC, VD. lra.
  - lra.
  - unfold near_axis. rewrite VA, sqrt_1, four_average, (proj2 four_x0), (proj2 four_x1), (proj2 four_x2), (proj2 four_x3).
    rewrite (Rabs_left (-1)), (Rabs_right 1) by lra. change (2 * List.length (b_hits ex_four) + 3)%nat with 11%nat. lra.
  - unfold near_axis. rewrite VD, four_average, (proj2 four_p0), (proj2 four_p1), (proj2 four_p2), (proj2 four_p3).
    rewrite (Rabs_left (-2)), (Rabs_right 2), Rabs_R0 by lra. change (2 * List.length (b_hits ex_four) + 3)%nat with 11%nat. nra.
  - rewrite VA, VC, VD, spread_112. change (List.length (b_hits ex_four)) with 4%nat. assert (/ 2 ^ 48 <= / 16384) by (apply Rinv_le_contravar; lra). lra.
  - exists be, ga, al. do 3 (split; [assumption|]). cbv zeta in B. rewrite VA, VC, VD, spread_112, (proj2 Qp) in B.
    replace (1 * 2 - 1 * 1) with 1 in B by ring. rewrite !sqrt_1 in B. replace (1 * 1 / 1) with 1 in B by field. replace (2 / (1 * 1)) with 2 in B by field.
    replace (1 / 1) with 1 in B by field. rewrite (Rabs_right 1), (Rabs_right 2) in B by lra. replace (-1) with (- (1)) by ring.
    change (List.length (b_hits ex_four)) with 4%nat in B.
    assert (S3 : sqrt 2 <= 2) by (rewrite <- (sqrt_square 2) at 2 by lra; apply sqrt_le_1; lra).
    assert (C0 : 0 <= cov_error 4 (/ 2 ^ 48)).
    { unfold cov_error. change (2 * 4 + 5)%nat with 13%nat. assert (0 <= units 13) by (unfold units; apply Rmult_le_pos; [apply pos_INR|left; apply Rinv_0_lt_compat, pow_lt; lra]). nra. }
    replace (/ 2 ^ 40) with (256 * / 2 ^ 48) by (change (2 ^ 48) with (2 * (2 * (2 * (2 * (2 * (2 * (2 * (2 * 2 ^ 40)))))))); field; try (apply pow_nonzero; lra)).
    destruct B as (B1 & B2 & B3). split; [lra|]. split; [lra|]. apply Rle_trans with (1 := B3).
    apply Rle_trans with (8 * (3 * cov_error 4 (/ 2 ^ 48)) * 2); [apply Rmult_le_compat_l; lra|lra].
Qed.

(** Three hits far from the axis: x = 2^53, 2^53 + 4, 2^53 + 6 and px = 0, 1, 2; the mass is 2. *)
Definition ex_far : list (WOp B64Num) :=
  [ WNew; WNew; WNew ] ++
  flat_map (fun q : nat * Z * Z => let '(l, x, p) := q in [ WSet l "mass" (z64 2); WSet l "x" (z64 x); WSet l "px" (z64 p) ])
    [ (0%nat, 9007199254740992, 0); (1%nat, 9007199254740996, 1); (2%nat, 9007199254740998, 2) ]%Z.
Lemma far_w : forall l, In l (b_hits ex_three) -> float64 (wrun ex_far) "weight" l /\ num64 (wrun ex_far) "weight" l = 1.
Proof. intros l [<- |[<- |[<- |[]]]]; apply read_w; reflexivity. Qed.
Lemma far_average f : average64 (wrun ex_far) (b_hits ex_three) f = (f 0%nat + f 1%nat + f 2%nat) / 3.
Proof.
  unfold average64, weight64. change (b_hits ex_three) with [0%nat; 1%nat; 2%nat]. cbn [rsum].
  rewrite (proj2 (far_w 0%nat ltac:(left; reflexivity))), (proj2 (far_w 1%nat ltac:(right; left; reflexivity))),
    (proj2 (far_w 2%nat ltac:(right; right; left; reflexivity))). field.
Qed.
Lemma val_f0 : value (b64_of_Z 9007199254740992) = 9007199254740992. Proof. b64_val. lra. Qed.
Lemma val_f1 : value (b64_of_Z 9007199254740996) = 9007199254740996. Proof. b64_val. lra. Qed.
Lemma val_f2 : value (b64_of_Z 9007199254740998) = 9007199254740998. Proof. b64_val. lra. Qed.
Lemma far_x0 : float64 (wrun ex_far) "x" 0 /\ num64 (wrun ex_far) "x" 0 = 9007199254740992. Proof. rewrite <- val_f0. apply read_z; [reflexivity|vm_compute; reflexivity]. Qed.
Lemma far_x1 : float64 (wrun ex_far) "x" 1 /\ num64 (wrun ex_far) "x" 1 = 9007199254740996. Proof. rewrite <- val_f1. apply read_z; [reflexivity|vm_compute; reflexivity]. Qed.
Lemma far_x2 : float64 (wrun ex_far) "x" 2 /\ num64 (wrun ex_far) "x" 2 = 9007199254740998. Proof. rewrite <- val_f2. apply read_z; [reflexivity|vm_compute; reflexivity]. Qed.
Lemma far_p0 : float64 (wrun ex_far) "px" 0 /\ num64 (wrun ex_far) "px" 0 = 0. Proof. rewrite <- val_0. apply read_z; [reflexivity|vm_compute; reflexivity]. Qed.
Lemma far_p1 : float64 (wrun ex_far) "px" 1 /\ num64 (wrun ex_far) "px" 1 = 1. Proof. rewrite <- val_1. apply read_z; [reflexivity|vm_compute; reflexivity]. Qed.
Lemma far_p2 : float64 (wrun ex_far) "px" 2 /\ num64 (wrun ex_far) "px" 2 = 2. Proof. rewrite <- val_2. apply read_z; [reflexivity|vm_compute; reflexivity]. Qed.
Lemma far_cov : true_cov (wrun ex_far) (b_hits ex_three) "x" "x" = 56 / 9 /\ true_cov (wrun ex_far) (b_hits ex_three) "x" "px" = 2 /\
  true_cov (wrun ex_far) (b_hits ex_three) "px" "px" = 2 / 3.
Proof.
  unfold true_cov. rewrite !far_average, (proj2 far_x0), (proj2 far_x1), (proj2 far_x2), (proj2 far_p0), (proj2 far_p1), (proj2 far_p2).
  repeat split; field.
Qed.
Lemma far_emittance : exists e, emittance64 lu_det root_plain with_p false (wrun ex_far) ex_three ["x"] None = inr e /\ 1 / 2 <= value e.
Proof.
  assert (E : is_right (emittance64 lu_det root_plain with_p false (wrun ex_far) ex_three ["x"] None) = true) by (vm_compute; reflexivity).
  assert (V : 1 / 2 <= value (right64 (emittance64 lu_det root_plain with_p false (wrun ex_far) ex_three ["x"] None))) by (b64_val; lra).
  revert E V. generalize (emittance64 lu_det root_plain with_p false (wrun ex_far) ex_three ["x"] None). intros r E V.
  exists (right64 r). split; [exact (right_is r E)|exact V].
Qed.
Lemma far_mass : exists m, first64 (wrun ex_far) ex_three "mass" = inr m /\ value m = 2.
Proof.
  assert (E : is_right (first64 (wrun ex_far) ex_three "mass") = true) by (vm_compute; reflexivity).
  assert (V : value (right64 (first64 (wrun ex_far) ex_three "mass")) = 2) by (b64_val; lra).
  revert E V. generalize (first64 (wrun ex_far) ex_three "mass"). intros r E V. exists (right64 r). split; [exact (right_is r E)|exact V].
Qed.

(** C101, refuted: far from the axis the emittance is not right even to a factor of two, though the covariances are far
    from singular. *)
Theorem C101_far_refuted :
  ~ (forall (prog : list (WOp B64Num)) (b : Bunch) (e mass : b64),
       let cov := true_cov (wrun prog) (b_hits b) in
       never_switches prog -> in_step b -> sane_weights (wrun prog) (b_hits b) ->
       (forall v l, In v ["x"; "px"] -> In l (b_hits b) -> float64 (wrun prog) v l /\ sane_size (num64 (wrun prog) v l)) ->
       first64 (wrun prog) b "mass" = inr mass ->
       0 < cov "x" "x" * cov "px" "px" - cov "x" "px" * cov "x" "px" ->
       spread (cov "x" "x") (cov "x" "px") (cov "px" "px") <= 100 ->
       emittance64 lu_det root_plain with_p false (wrun prog) b ["x"] None = inr e ->
       value e <= 2 * (sqrt (cov "x" "x" * cov "px" "px" - cov "x" "px" * cov "x" "px") / value mass)).
Proof.
  intros H. destruct far_emittance as (e & E & V). destruct far_mass as (m & M & Vm). destruct far_cov as (VA & VC & VD).
  specialize (H ex_far ex_three e m). cbv zeta in H. rewrite VA, VC, VD, Vm in H.
  assert (S : sqrt (56 / 9 * (2 / 3) - 2 * 2) <= 4 / 10).
  { rewrite <- (sqrt_square (4 / 10)) by lra. apply sqrt_le_1; lra. }
  assert (B : value e <= 2 * (sqrt (56 / 9 * (2 / 3) - 2 * 2) / 2)).
  { apply H.
    - repeat constructor.
    - reflexivity.
    - apply ones_sane; [discriminate|simpl; lia|exact far_w].
    - assert (T : 2 ^ 54 <= 2 ^ 100) by (apply Rle_pow; [lra|lia]).
      assert (S1 : forall r, 1 <= r <= 9007199254740998 -> sane_size r).
      { intros r Hr. right. rewrite Rabs_right by lra. split; [|lra]. apply Rle_trans with 1; [|lra]. rewrite <- Rinv_1. apply Rinv_le_contravar; lra. }
      intros v l [<- |[<- |[]]] [<- |[<- |[<- |[]]]];
        (split; [first [apply far_x0|apply far_x1|apply far_x2|apply far_p0|apply far_p1|apply far_p2]|]).
      + rewrite (proj2 far_x0). apply S1. lra.
      + rewrite (proj2 far_x1). apply S1. lra.
      + rewrite (proj2 far_x2). apply S1. lra.
      + rewrite (proj2 far_p0). left. reflexivity.
      + rewrite (proj2 far_p1). apply S1. lra.
      + rewrite (proj2 far_p2). apply S1. lra.
    - exact M.
    - lra.
    - unfold spread. lra.
    - exact E. }
  lra.
Qed.
Print Assumptions C101_far_refuted.
