(** Property C102: geometric emittance and Twiss parameters in double precision. *)
From Coq Require Import Reals ZArith Bool String List Lia Lra Psatz.
From Flocq Require Import Core BinarySingleNaN.
From Verif Require Import FloatProps.
From Verif Require Import Num WeightModel HitcoreModel PyLibModel HitPyModel BunchModel MomentModel EllipseModel FloatModel MomentSpec FloatArith FloatSpec
  Bin64Model Bin64Spec Bin64Proofs Bin64Props Shell64Model Shell64Spec Shell64Proofs Shell64Props Derive64Model Derive64Proofs Linear64Model
  Linear64Spec Linear64Proofs Linear64Props Emit64Model Emit64Spec Emit64Proofs Emit64Props Geom64Model Geom64Spec.
Import ListNotations.
Open Scope string_scope.
Open Scope list_scope.
Open Scope R_scope.

Lemma slopes_ok u v : In (u, v) slopes -> u <> v /\ momentum_variable u true = Some v /\ covariance_list [u] true = Some [u; v].
Proof. intros H. repeat (destruct H as [E|H]; [injection E as <- <-; repeat split; discriminate|]). destruct H. Qed.

Section Values.
  Variable det : Matrix64 -> b64.
  Variable pow : b64 -> b64 -> b64.
  Variable extra : World64 -> list nat -> string -> nat -> option (PyVal B64Num).
  Variable (w : World64) (b : Bunch) (u v : string) (a c d : b64).
  Hypothesis Huv : In (u, v) slopes.
  Hypothesis HA : moment extra no_fixed w b [u; u] [] = inr a.
  Hypothesis HC : moment extra no_fixed w b [u; v] [] = inr c.
  Hypothesis HD : moment extra no_fixed w b [v; v] [] = inr d.

  Lemma geo_emittance_is : emittance64 det pow extra true w b [u] None = inr (pow (det [[a; c]; [c; d]]) half64).
  Proof.
    destruct (slopes_ok u v Huv) as (N & _ & L). destruct (moments_shape extra w b u v a c d N HA HC HD) as (M & _).
    unfold emittance64. rewrite L, M. unfold bindE. reflexivity.
  Qed.
  Lemma geo_beta_is e y : emittance64 det pow extra true w b [u] None = inr e ->
    div_py (fadd fzero a) (fmul e (b64_of_Z 1)) = inr y -> beta64 det pow extra true w b [u] = inr y.
  Proof.
    intros E Y. destruct (slopes_ok u v Huv) as (N & _ & L). destruct (moments_shape extra w b u v a c d N HA HC HD) as (_ & V & _).
    unfold beta64. rewrite E. unfold sum64, bindE. rewrite V. change (count64 [u]) with (b64_of_Z 1). exact Y.
  Qed.
  Lemma geo_gamma_is e y : emittance64 det pow extra true w b [u] None = inr e ->
    div_py (fadd fzero d) (fmul e (b64_of_Z 1)) = inr y -> gamma64 det pow extra true w b [u] = inr y.
  Proof.
    intros E Y. destruct (slopes_ok u v Huv) as (N & L & _). destruct (moments_shape extra w b u v a c d N HA HC HD) as (_ & _ & _ & V).
    unfold gamma64. rewrite E. unfold sum64, bindE. rewrite L, V. change (count64 [u]) with (b64_of_Z 1). exact Y.
  Qed.
  Lemma geo_alpha_is e y : emittance64 det pow extra true w b [u] None = inr e ->
    div_py (fadd fzero c) (fmul e (b64_of_Z 1)) = inr y -> alpha64 det pow extra true w b [u] = inr (fopp y).
  Proof.
    intros E Y. destruct (slopes_ok u v Huv) as (N & L & _). destruct (moments_shape extra w b u v a c d N HA HC HD) as (_ & _ & V & _).
    unfold alpha64. rewrite E. unfold sum64, bindE. rewrite L, V. change (count64 [u]) with (b64_of_Z 1). rewrite Y. reflexivity.
  Qed.
End Values.

(** Division by one. *)
Lemma div_one (x : b64) : finite (fdiv x (b64_of_Z 1)) = true -> finite x = true /\ value (fdiv x (b64_of_Z 1)) = value x.
Proof.
  intros F. assert (Fx : finite x = true) by (destruct x as [s|s| |s m e H]; [reflexivity|destruct s; vm_compute in F; discriminate|vm_compute in F; discriminate|reflexivity]).
  split; [exact Fx|]. destruct one64 as [F1 V1].
  assert (N : value (b64_of_Z 1) <> 0) by (rewrite V1; lra).
  pose proof (Bdiv_correct prec64 emax64 _ _ mode_NE x (b64_of_Z 1) N) as C. rewrite V1 in C. replace (value x / 1) with (value x) in C by field.
  assert (E : round radix2 (SpecFloat.fexp prec64 emax64) (round_mode mode_NE) (value x) = value x)
    by (apply round_generic; [apply valid_rnd_N|apply generic_format_B2R]).
  rewrite E in C. rewrite Rlt_bool_true in C by apply abs_B2R_lt_emax. destruct C as (C1 & _). exact C1.
Qed.

Lemma one_everyday : everyday (b64_of_Z 1).
Proof. apply (everyday_of _ 1); [exact one64|lra]. Qed.

Section Geo.
  Variable (det : Matrix64 -> b64) (pow : b64 -> b64 -> b64).
  Hypothesis Gd : good_det det.
  Hypothesis Gr : good_root pow.
  Variable (a c d : b64).
  Hypothesis Ua : usual a.
  Hypothesis Uc : usual c.
  Hypothesis Ud : usual d.
  Let D : R := value a * value d - value c * value c.
  Let K : R := spread (value a) (value c) (value d).
  Hypothesis PD : 0 < D.
  Hypothesis HK : K <= 2 ^ 40.
  Let e : b64 := pow (det [[a; c]; [c; d]]) half64.

  Lemma geo_value : finite e = true /\ exists t, Rabs t <= (8 * K + 16) * u /\ value e = sqrt D * (1 + t) /\
    value e = sqrt D / value (b64_of_Z 1) * (1 + t).
  Proof.
    destruct one64 as [F1 V1]. assert (P1 : 0 < value (b64_of_Z 1)) by (rewrite V1; lra).
    destruct (emit_value det pow Gd Gr a c d (b64_of_Z 1) Ua Uc Ud one_everyday P1 PD HK) as (F & t & Ht & V). fold e in F, V.
    destruct (div_one e F) as [Fe Ve]. split; [exact Fe|]. exists t. split; [exact Ht|]. rewrite Ve in V. split; [|exact V].
    rewrite V. fold D. rewrite V1. field.
  Qed.
End Geo.

(** A quotient by the emittance. *)
Lemma geo_quot (a c d e x : b64) (t : R) : usual a -> usual d -> usual x ->
  0 < value a * value d - value c * value c -> spread (value a) (value c) (value d) <= 2 ^ 40 ->
  finite e = true -> Rabs t <= (8 * spread (value a) (value c) (value d) + 16) * u ->
  value e = sqrt (value a * value d - value c * value c) / value (b64_of_Z 1) * (1 + t) ->
  exists y, div_py (fadd fzero x) (fmul e (b64_of_Z 1)) = inr y /\ finite y = true /\ like 1 (value x / value e) (value y).
Proof.
  intros Ua Ud Ux PD HK Fe Ht Ve. destruct one64 as [F1 V1]. assert (P1 : 0 < value (b64_of_Z 1)) by (rewrite V1; lra).
  assert (Ne : value e <> 0) by (eapply (e_not0 a c d (b64_of_Z 1) e); eassumption).
  assert (Se : scaled 281 (value e)) by (eapply (e_scaled a c d (b64_of_Z 1) e); try eassumption; exact one_everyday).
  destruct (usual_scaled x Ux) as [Fx Sx]. destruct (zero_plus x Fx) as [Fz Vz]. destruct (mul_one e Fe) as [F3 V3]. unfold div_py.
  assert (feq (fmul e (b64_of_Z 1)) fzero = false) as ->.
  { destruct (feq (fmul e (b64_of_Z 1)) fzero) eqn:Q; [|reflexivity]. apply feq_zero in Q; [|exact F3]. rewrite V3 in Q. contradiction. }
  destruct (div_like (fadd fzero x) (fmul e (b64_of_Z 1)) 0 0 (value x) (value e) 200 281 Fz) as (F4 & K4 & _); try lia;
    [rewrite Vz; apply like_refl|rewrite V3; apply like_refl|exact Ne|exact Sx|exact Se|]. cbn [Nat.add] in K4.
  eexists. split; [reflexivity|]. split; [exact F4|exact K4].
Qed.

(** ---------------------------------------------------------------- C102 *)

(** C102.  The geometric emittance of one axis is the square root of the determinant of the covariances of position and
    slope, up to a few units of precision times how close to singular the covariances are. *)
Theorem C102_emittance :
  forall det pow extra (w : World64) (b : Bunch) (q p : string) (a c d : b64),
    good_det det -> good_root pow -> In (q, p) slopes ->
    moment extra no_fixed w b [q; q] [] = inr a -> moment extra no_fixed w b [q; p] [] = inr c ->
    moment extra no_fixed w b [p; p] [] = inr d -> usual a -> usual c -> usual d ->
    0 < value a * value d - value c * value c -> spread (value a) (value c) (value d) <= 2 ^ 40 ->
    exists e : b64, emittance64 det pow extra true w b [q] None = inr e /\ finite e = true /\
      let exact := sqrt (value a * value d - value c * value c) in
      Rabs (value e - exact) <= (8 * spread (value a) (value c) (value d) + 16) * unit * exact.
Proof.
  intros det pow extra w b q p a c d Gd Gr Hq HA HC HD Ua Uc Ud PD HK.
  destruct (geo_value det pow Gd Gr a c d Ua Uc Ud PD HK) as (F & t & Ht & V & _).
  eexists. split; [exact (geo_emittance_is det pow extra w b q p a c d Hq HA HC HD)|]. split; [exact F|]. cbv zeta. rewrite V, unit_u.
  set (e0 := sqrt _). assert (0 < e0) by (apply sqrt_lt_R0, PD).
  replace (e0 * (1 + t) - e0) with (e0 * t) by ring. rewrite Rabs_mult, (Rabs_right e0) by lra. rewrite Rmult_comm. apply Rmult_le_compat_r; [lra|exact Ht].
Qed.
Print Assumptions C102_emittance.

(** C102.  beta, gamma and alpha of one axis, geometric: covariances over the emittance, and they belong together. *)
Theorem C102_twiss :
  forall det pow extra (w : World64) (b : Bunch) (q p : string) (a c d : b64),
    good_det det -> good_root pow -> In (q, p) slopes ->
    moment extra no_fixed w b [q; q] [] = inr a -> moment extra no_fixed w b [q; p] [] = inr c ->
    moment extra no_fixed w b [p; p] [] = inr d -> usual a -> usual c -> usual d ->
    0 < value a * value d - value c * value c -> spread (value a) (value c) (value d) <= 2 ^ 40 ->
    exists beta gamma alpha : b64,
      beta64 det pow extra true w b [q] = inr beta /\ gamma64 det pow extra true w b [q] = inr gamma /\
      alpha64 det pow extra true w b [q] = inr alpha /\
      finite beta = true /\ finite gamma = true /\ finite alpha = true /\
      let root := sqrt (value a * value d - value c * value c) in
      let K := spread (value a) (value c) (value d) in
      Rabs (value beta - value a / root) <= 40 * K * unit * Rabs (value a / root) /\
      Rabs (value gamma - value d / root) <= 40 * K * unit * Rabs (value d / root) /\
      Rabs (value alpha - - (value c / root)) <= 40 * K * unit * Rabs (value c / root) /\
      Rabs (value beta * value gamma - value alpha * value alpha - 1) <= 200 * K * unit.
Proof.
  intros det pow extra w b q p a c d Gd Gr Hq HA HC HD Ua Uc Ud PD HK.
  destruct (geo_value det pow Gd Gr a c d Ua Uc Ud PD HK) as (F & t & Ht & V & V').
  pose proof (geo_emittance_is det pow extra w b q p a c d Hq HA HC HD) as E. set (e := pow _ half64) in *.
  destruct (geo_quot a c d e a t Ua Ud Ua PD HK F Ht V') as (y1 & Y1 & F1 & K1).
  destruct (geo_quot a c d e d t Ua Ud Ud PD HK F Ht V') as (y2 & Y2 & F2 & K2).
  destruct (geo_quot a c d e c t Ua Ud Uc PD HK F Ht V') as (y3 & Y3 & F3 & K3).
  destruct (t_small a c d PD HK t Ht) as (T & T2 & K0 & Ku). pose proof (spread_eq a c d PD) as SE.
  exists y1, y2, (fopp y3).
  split; [exact (geo_beta_is det pow extra w b q p a c d Hq HA HC HD e y1 E Y1)|].
  split; [exact (geo_gamma_is det pow extra w b q p a c d Hq HA HC HD e y2 E Y2)|].
  split; [exact (geo_alpha_is det pow extra w b q p a c d Hq HA HC HD e y3 E Y3)|].
  split; [exact F1|]. split; [exact F2|]. split; [rewrite is_finite_Bopp; exact F3|]. cbv zeta. rewrite unit_u, B2R_Bopp.
  clear E Y1 Y2 Y3 HA HC HD V'.
  destruct K1 as (h1 & H1 & ->). destruct K2 as (h2 & H2 & ->). destruct K3 as (h3 & H3 & ->). rewrite V. clearbody e.
  set (D := value a * value d - value c * value c) in *. set (K := spread _ _ _) in *. set (s := sqrt D) in *.
  assert (Ps : 0 < s) by (apply sqrt_lt_R0, PD). assert (Ss : s * s = D) by (apply sqrt_sqrt; lra). assert (N1 : 1 + t <> 0) by lra.
  assert (Q : forall x h, near 1 h -> Rabs (x / (s * (1 + t)) * h - x / s) <= 40 * K * u * Rabs (x / s)).
  { intros x h H. replace (x / (s * (1 + t)) * h - x / s) with ((h / (1 + t) - 1) * (x / s)) by (field; lra). rewrite Rabs_mult.
    apply Rmult_le_compat_r; [apply Rabs_pos|]. apply quotient_near; [exact K0|exact Ku| |exact T].
    apply (near_abs 4); [apply (near_le 1); [lia|exact H]|lia|simpl; lra]. }
  split; [exact (Q _ _ H1)|]. split; [exact (Q _ _ H2)|].
  split; [replace (- (value c / (s * (1 + t)) * h3) - - (value c / s)) with (- (value c / (s * (1 + t)) * h3 - value c / s)) by ring; rewrite Rabs_Ropp; exact (Q _ _ H3)|].
  replace (value a / (s * (1 + t)) * h1 * (value d / (s * (1 + t)) * h2) - - (value c / (s * (1 + t)) * h3) * - (value c / (s * (1 + t)) * h3) - 1)
    with (value a * value d / (s * (1 + t) * (s * (1 + t))) * (h1 * h2) - value c * value c / (s * (1 + t) * (s * (1 + t))) * (h3 * h3) - 1)
    by (field; repeat split; lra).
  apply (twiss_near (value a * value d) (value c * value c) D K (s * (1 + t)) t); try assumption.
  - apply sq_nonneg.
  - reflexivity.
  - rewrite <- Ss. ring.
  - apply Rmult_integral_contrapositive_currified; lra.
  - apply (near_abs 2); [exact (near_mul 1 1 _ _ H1 H2)|lia|simpl; lra].
  - apply (near_abs 2); [exact (near_mul 1 1 _ _ H3 H3)|lia|simpl; lra].
Qed.
Print Assumptions C102_twiss.

(** Four hits: x = -1, 1, -1, 1, px = -4, 0, 0, 4 and pz = 2. *)
Definition ex_geo : list (WOp B64Num) :=
  [ WNew; WNew; WNew; WNew ] ++
  flat_map (fun q : nat * Z * Z => let '(l, x, p) := q in
     [ WSet l "mass" (z64 2); WSet l "x" (z64 x); WSet l "px" (z64 p); WSet l "py" (z64 0); WSet l "pz" (z64 2) ])
    [ (0%nat, -1, -4); (1%nat, 1, 0); (2%nat, -1, 0); (3%nat, 1, 4) ]%Z.
Notation geo_m vars := (moment extra_slope no_fixed (wrun ex_geo) ex_four vars []).
Lemma geo_all : exists a c d : b64,
  geo_m ["x"; "x"] = inr a /\ geo_m ["x"; "x'"] = inr c /\ geo_m ["x'"; "x'"] = inr d /\
  (finite a = true /\ value a = 1) /\ (finite c = true /\ value c = 1) /\ (finite d = true /\ value d = 2).
Proof.
  exists (right64 (geo_m ["x"; "x"])), (right64 (geo_m ["x"; "x'"])), (right64 (geo_m ["x'"; "x'"])).
  split; [apply right_is; vm_compute; reflexivity|]. split; [apply right_is; vm_compute; reflexivity|].
  split; [apply right_is; vm_compute; reflexivity|].
  split; [split; [apply fin_SF; vm_compute; reflexivity|b64_val; lra]|].
  split; [split; [apply fin_SF; vm_compute; reflexivity|b64_val; lra]|].
  split; [apply fin_SF; vm_compute; reflexivity|b64_val; lra].
Qed.

(** Their geometric emittance is 1, beta 1, gamma 2 and alpha -1. *)
Example C102_emittance_ex : exists e : b64, emittance64 lu_det root_plain extra_slope true (wrun ex_geo) ex_four ["x"] None = inr e /\
  finite e = true /\ Rabs (value e - 1) <= 40 * unit.
Proof.
  destruct geo_all as (a & c & d & A & C & D & Qa & Qc & Qd).
  pose proof (proj2 Qa) as Va. pose proof (proj2 Qc) as Vc. pose proof (proj2 Qd) as Vd.
  destruct (C102_emittance lu_det root_plain extra_slope (wrun ex_geo) ex_four "x" "x'" a c d lu_good root_good (or_introl eq_refl) A C D) as (e & E & F & B).
  - apply (usual_of _ _ Qa); lra.
  - apply (usual_of _ _ Qc); lra.
  - apply (usual_of _ _ Qd); lra.
  - rewrite Va, Vc, Vd. lra.
  - rewrite Va, Vc, Vd, spread_112. lra.
  - exists e. split; [exact E|]. split; [exact F|]. cbv zeta in B. rewrite Va, Vc, Vd, spread_112 in B.
    replace (1 * 2 - 1 * 1) with 1 in B by ring. rewrite sqrt_1 in B. lra.
Qed.
Example C102_twiss_ex : exists beta gamma alpha : b64,
  beta64 lu_det root_plain extra_slope true (wrun ex_geo) ex_four ["x"] = inr beta /\
  gamma64 lu_det root_plain extra_slope true (wrun ex_geo) ex_four ["x"] = inr gamma /\
  alpha64 lu_det root_plain extra_slope true (wrun ex_geo) ex_four ["x"] = inr alpha /\
  Rabs (value beta - 1) <= 120 * unit /\ Rabs (value gamma - 2) <= 240 * unit /\ Rabs (value alpha - -1) <= 120 * unit.
Proof.
  destruct geo_all as (a & c & d & A & C & D & Qa & Qc & Qd).
  pose proof (proj2 Qa) as Va. pose proof (proj2 Qc) as Vc. pose proof (proj2 Qd) as Vd.
  destruct (C102_twiss lu_det root_plain extra_slope (wrun ex_geo) ex_four "x" "x'" a c d lu_good root_good (or_introl eq_refl) A C D)
    as (be & ga & al & Eb & Eg & Ea & _ & _ & _ & B).
  - apply (usual_of _ _ Qa); lra.
  - apply (usual_of _ _ Qc); lra.
  - apply (usual_of _ _ Qd); lra.
  - rewrite Va, Vc, Vd. lra.
  - rewrite Va, Vc, Vd, spread_112. lra.
  - exists be, ga, al. split; [exact Eb|]. split; [exact Eg|]. split; [exact Ea|]. cbv zeta in B. rewrite Va, Vc, Vd, spread_112 in B.
    replace (1 * 2 - 1 * 1) with 1 in B by ring. rewrite sqrt_1 in B. replace (2 / 1) with 2 in B by field.
    replace (1 / 1) with 1 in B by field. rewrite (Rabs_right 1), (Rabs_right 2) in B by lra. replace (-1) with (- (1)) by ring.
    destruct B as (B1 & B2 & B3 & _). repeat split; lra.
Qed.
