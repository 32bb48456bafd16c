(** Property C103: dispersion in double precision. *)
From Coq Require Import Reals ZArith Bool String List Lia Lra Psatz.
From Flocq Require Import Core BinarySingleNaN.
From Verif Require Import FloatProps.
From Verif Require Import Num WeightModel HitcoreModel HitcoreSpec PyLibModel HitPyModel BunchModel BunchSpec MomentModel EllipseModel FloatModel MomentSpec MomentProofs
  FloatArith FloatSpec FloatProofs Bin64Model Bin64Spec Bin64Proofs Shell64Model Shell64Spec Shell64Proofs Derive64Model Derive64Proofs Linear64Spec Linear64Proofs Emit64Model Emit64Spec
  Emit64Proofs Emit64Props Beam64Spec Beam64Proofs Beam64Props Geom64Spec Disp64Model.
Import ListNotations.
Open Scope string_scope.
Open Scope list_scope.
Open Scope R_scope.

(** ---------------------------------------------------------------- C103 *)

(** C103.  The dispersion is the covariance times the mean energy over the variance of the energy, as the bunch reports
    them, to four units. *)
Theorem C103_dispersion :
  forall extra (w : World64) (b : Bunch) (v : string) (c m e : b64),
    moment extra no_fixed w b [v; "energy"] [] = inr c -> mean64 extra w b "energy" = inr m ->
    moment extra no_fixed w b ["energy"; "energy"] [] = inr e -> usual c -> usual m -> usual e -> value e <> 0 ->
    exists d : b64, dispersion64 extra w b v = inr d /\ finite d = true /\
      let exact := value c * value m / value e in Rabs (value d - exact) <= 4 * unit * Rabs exact.
Proof.
  intros extra w b v c m e Hc Hm He Uc Um Ue N. exists (fdiv (fmul c m) e).
  destruct (usual_scaled c Uc) as [Fc Sc]. destruct (usual_scaled m Um) as [Fm Sm]. destruct (usual_scaled e Ue) as [Fe Se].
  split.
  { unfold dispersion64. rewrite Hc, Hm, He. unfold bindE, div_py.
    assert (feq e fzero = false) as -> by (destruct (feq e fzero) eqn:Q; [apply feq_zero in Q; [contradiction|exact Fe]|reflexivity]). reflexivity. }
  destruct (mul_like c m 0 0 _ _ 200 200 Fc Fm (like_refl _) (like_refl _) Sc Sm) as (F1 & K1); try lia. cbn [Nat.add] in K1.
  pose proof (scaled_mul _ _ _ _ Sc Sm) as S1.
  destruct (div_like (fmul c m) e 1 0 _ _ (200 + 200) 200 F1 K1 (like_refl _) N S1 Se) as (F2 & K2 & _); try lia. cbn [Nat.add] in K2.
  split; [exact F2|]. cbv zeta. rewrite unit_u. destruct K2 as (h & H & ->). set (x := value c * value m / value e).
  replace (x * h - x) with ((h - 1) * x) by ring. rewrite Rabs_mult. apply Rmult_le_compat_r; [apply Rabs_pos|].
  apply (near_abs 2); [exact H|lia|simpl; lra].
Qed.
Print Assumptions C103_dispersion.

(** C103.  The dispersion prime of an axis is the dispersion of its momentum, or with geometric its slope; there is none
    for other names. *)
Theorem C103_prime :
  forall extra (w : World64) (b : Bunch) (q p : string),
    (In (q, p) pairs -> dispersion_prime64 extra w b q false = dispersion64 extra w b p) /\
    (In (q, p) slopes -> dispersion_prime64 extra w b q true = dispersion64 extra w b p) /\
    (~ In q ["x"; "y"; "z"; "t"; "ct"] -> forall g, dispersion_prime64 extra w b q g = inl MOther).
Proof.
  intros extra w b q p. unfold dispersion_prime64. split; [|split].
  - intros H. destruct (pairs_ok q p H) as (_ & -> & _). reflexivity.
  - intros H. repeat (destruct H as [E|H]; [injection E as <- <-; reflexivity|]). destruct H.
  - intros N g. unfold momentum_variable. assert (index_of axis_list q = None) as ->; [|reflexivity].
    unfold axis_list. cbn [index_of].
    repeat match goal with |- context [String.eqb ?a ?b] => destruct (String.eqb_spec a b) as [Q|_]; [exfalso; apply N; rewrite <- ?Q; try rewrite Q; simpl; tauto|] end.
    reflexivity.
Qed.
Print Assumptions C103_prime.

(** C103.  Without a spread of the energy there is no dispersion: ZeroDivisionError. *)
Theorem C103_zero :
  forall extra (w : World64) (b : Bunch) (v : string) (c m e : b64),
    moment extra no_fixed w b [v; "energy"] [] = inr c -> mean64 extra w b "energy" = inr m ->
    moment extra no_fixed w b ["energy"; "energy"] [] = inr e -> finite e = true -> value e = 0 ->
    dispersion64 extra w b v = inl MZeroDivision.
Proof.
  intros extra w b v c m e Hc Hm He F Z. unfold dispersion64. rewrite Hc, Hm, He. unfold bindE, div_py.
  assert (feq e fzero = true) as ->; [|reflexivity]. clear - F Z. destruct e as [s|s| |s n k H]; try discriminate; [destruct s; reflexivity|].
  exfalso. simpl in Z. apply (F2R_neq_0 radix2 _) in Z; [exact Z|]. destruct s; discriminate.
Qed.
Print Assumptions C103_zero.

(** ---- against the hits ---- *)
Lemma cov_bound (w : World64) hs q p : sane_weights w hs -> 0 < true_cov w hs q q -> 0 < true_cov w hs p p ->
  Rabs (true_cov w hs q p) <= sqrt (true_cov w hs q q) * sqrt (true_cov w hs p p).
Proof.
  intros S0 Pq Pp. pose proof (W_gt0 w hs S0) as W0.
  assert (Pw : forall l, In l hs -> 0 <= num64 w "weight" l).
  { intros l Hl. destruct S0 as (Q & _). destruct (Q l Hl) as [_ [L _]]. apply Rle_trans with (2 := L). left. apply Rinv_0_lt_compat, pow_lt. lra. }
  set (f := fun l => num64 w q l - average64 w hs (num64 w q)). set (g := fun l => num64 w p l - average64 w hs (num64 w p)).
  apply Rle_trans with (average64 w hs (fun l => Rabs (f l * g l))).
  - apply Rabs_le. split.
    + apply Ropp_le_cancel. rewrite Ropp_involutive. change (true_cov w hs q p) with (average64 w hs (fun l => f l * g l)).
      replace (- average64 w hs (fun l => f l * g l)) with (average64 w hs (fun l => (-1) * (f l * g l) + 0 * 0))
        by (rewrite (avg_comb w hs (fun l => f l * g l) (fun _ => 0) (-1) 0); ring).
      apply (avg_le w hs W0 Pw). intros l _. pose proof (Rle_abs (- (f l * g l))) as H. rewrite Rabs_Ropp in H. lra.
    + apply (avg_le w hs W0 Pw). intros l _. apply Rle_abs.
  - apply (avg_product w hs W0 Pw f g); [apply sqrt_lt_R0, Pq|apply sqrt_lt_R0, Pp| |].
    + rewrite sqrt_sqrt by lra. right. reflexivity.
    + rewrite sqrt_sqrt by lra. right. reflexivity.
Qed.

Lemma quotient_close C M V c m d y eta g h :
  0 <= eta <= / 1000 -> 0 < V -> 0 < M -> Rabs C <= g ->
  Rabs (c - C) <= eta * g -> Rabs (m - M) <= eta * M -> Rabs (d - V) <= eta * V -> Rabs (y - c * m / d) <= h * Rabs (c * m / d) -> 0 <= h <= eta / 5 ->
  Rabs (y - C * M / V) <= 4 * eta * (g * M / V).
Proof.
  intros He PV PM HC Hc Hm Hd Hy Hh. assert (G0 : 0 <= g) by (pose proof (Rabs_pos C); lra).
  assert (I : 0 < / V) by (apply Rinv_0_lt_compat, PV). set (G := g * M / V). assert (PG : 0 <= G) by (unfold G, Rdiv; apply Rmult_le_pos; [apply Rmult_le_pos; lra|lra]).
  set (z := C * M / V). set (ed := (d - V) / V). set (mu := (m - M) / M). set (de := (c - C) * M / V).
  assert (Bed : Rabs ed <= eta).
  { unfold ed, Rdiv. rewrite Rabs_mult, (Rabs_right (/ V)) by lra. apply Rmult_le_reg_r with V; [exact PV|]. rewrite Rmult_assoc, Rinv_l, Rmult_1_r by lra. exact Hd. }
  assert (Bmu : Rabs mu <= eta).
  { assert (0 < / M) by (apply Rinv_0_lt_compat, PM). unfold mu, Rdiv. rewrite Rabs_mult, (Rabs_right (/ M)) by lra. apply Rmult_le_reg_r with M; [exact PM|]. rewrite Rmult_assoc, Rinv_l, Rmult_1_r by lra. exact Hm. }
  assert (MV : 0 <= M / V) by (unfold Rdiv; apply Rmult_le_pos; lra).
  assert (Bz : Rabs z <= G).
  { unfold z, G. replace (C * M / V) with (C * (M / V)) by (field; lra). replace (g * M / V) with (g * (M / V)) by (field; lra).
    rewrite Rabs_mult, (Rabs_right (M / V)) by lra. apply Rmult_le_compat_r; lra. }
  assert (Bde : Rabs de <= eta * G).
  { unfold de, G. replace ((c - C) * M / V) with ((c - C) * (M / V)) by (field; lra). replace (eta * (g * M / V)) with (eta * g * (M / V)) by (field; lra).
    rewrite Rabs_mult, (Rabs_right (M / V)) by lra. apply Rmult_le_compat_r; lra. }
  assert (T : - / 1000 <= ed <= / 1000) by (apply Rabs_le_inv; lra). assert (T' : - / 1000 <= mu <= / 1000) by (apply Rabs_le_inv; lra).
  assert (Ez : c * m / d = (z + de) * (1 + mu) / (1 + ed)).
  { assert (d = V * (1 + ed)) by (unfold ed; field; lra). assert (m = M * (1 + mu)) by (unfold mu; field; lra). rewrite H, H0. unfold z, de. field. split; lra. }
  set (q := c * m / d) in *. assert (EG : 0 <= eta * G <= / 1000 * G) by (split; [apply Rmult_le_pos; lra|apply Rmult_le_compat_r; lra]).
  assert (D1 : Rabs (q - z) <= 31 / 10 * (eta * G)).
  { replace (q - z) with ((de * (1 + mu) + (z * mu - z * ed)) * / (1 + ed)) by (rewrite Ez; field; lra).
    rewrite Rabs_mult, Rabs_inv, (Rabs_right (1 + ed)) by lra. apply Rmult_le_reg_r with (1 + ed); [lra|]. rewrite Rmult_assoc, Rinv_l, Rmult_1_r by lra.
    eapply Rle_trans; [apply Rabs_triang|]. rewrite Rabs_mult, (Rabs_right (1 + mu)) by lra.
    assert (Rabs (z * mu - z * ed) <= 2 * (eta * G)).
    { replace (z * mu - z * ed) with (z * mu + - (z * ed)) by ring. eapply Rle_trans; [apply Rabs_triang|]. rewrite Rabs_Ropp, !Rabs_mult.
      assert (Rabs z * Rabs mu <= G * eta) by (apply Rmult_le_compat; auto using Rabs_pos).
      assert (Rabs z * Rabs ed <= G * eta) by (apply Rmult_le_compat; auto using Rabs_pos). lra. }
    assert (Rabs de * (1 + mu) <= eta * G * (1 + / 1000)) by (apply Rmult_le_compat; auto using Rabs_pos; lra). nra. }
  assert (Bq : Rabs q <= 1004 / 1000 * G).
  { replace q with ((q - z) + z) by ring. eapply Rle_trans; [apply Rabs_triang|]. lra. }
  replace (y - z) with ((y - q) + (q - z)) by ring. eapply Rle_trans; [apply Rabs_triang|].
  assert (h * Rabs q <= eta / 5 * (1004 / 1000 * G)) by (apply Rmult_le_compat; auto using Rabs_pos; lra). nra.
Qed.

(** C103.  Against the hits: for particles of positive energy the reported dispersion is the exact one up to four times the
    error of the covariances, relative to the largest dispersion a beam of these widths can have. *)
Theorem C103_hits :
  forall extra (prog : list (WOp B64Num)) (b : Bunch) (v : string) (rho : R),
    let w := wrun prog in let hits := b_hits b in
    let A := true_cov w hits v v in let C := true_cov w hits v "energy" in let V := true_cov w hits "energy" "energy" in
    let M := average64 w hits (num64 w "energy") in let eta := cov_error (List.length hits) rho in
    never_switches prog -> in_step b -> sane_weights w hits ->
    (forall x l, In x [v; "energy"] -> In l hits -> float64 w x l /\ sane_size (num64 w x l)) ->
    (forall x m l, In x [v; "energy"] -> mean64 extra w b x = inr m -> In l hits -> sane_size (num64 w x l - B2R m)) ->
    (forall c, moment extra no_fixed w b [v; "energy"] [] = inr c -> usual c) ->
    (forall l, In l hits -> 0 <= num64 w "energy" l) -> / 2 ^ 100 <= M <= 2 ^ 100 ->
    0 < A -> / 2 ^ 100 <= V <= 2 ^ 100 -> 0 <= rho <= 1 -> near_axis w hits rho v -> near_axis w hits rho "energy" -> eta <= / 1000 ->
    exists d : b64, dispersion64 extra w b v = inr d /\ finite d = true /\
      Rabs (value d - C * M / V) <= 4 * eta * (sqrt A * sqrt V * M / V).
Proof.
  intros extra prog b v rho w hits A C V M eta Hn Hs S0 HF HM HC HE RM PA RV Pr Nv Ne He.
  assert (P100 : 0 < / 2 ^ 100) by (apply Rinv_0_lt_compat, pow_lt; lra). assert (PV : 0 < V) by lra. assert (PM : 0 < M) by lra.
  pose proof (W_gt0 w hits S0) as W0.
  assert (Pw : forall l, In l hits -> 0 <= num64 w "weight" l).
  { intros l Hl. destruct S0 as (Q & _). destruct (Q l Hl) as [_ [L _]]. apply Rle_trans with (2 := L). left. apply Rinv_0_lt_compat, pow_lt. lra. }
  assert (I1 : In v [v; "energy"]) by (left; reflexivity). assert (I2 : In "energy" [v; "energy"]) by (right; left; reflexivity).
  destruct (cov_close extra prog b Hn Hs S0 rho Pr v "energy" HF HM) as (c & Mc & Fc & Bc).
  { intros x [<- |[<- |[]]]; split; assumption. }
  destruct (cov_close extra prog b Hn Hs S0 rho Pr "energy" "energy") as (e & Me & Fe & Be).
  { intros x l [<- |[<- |[]]]; apply HF; assumption. }
  { intros x m l [<- |[<- |[]]]; apply HM; assumption. }
  { intros x [<- |[<- |[]]]; split; assumption. }
  destruct (C84_mean extra prog b ["energy"] Hn Hs S0) as (d & Ed & _ & G).
  { intros x l [<- |[]]; apply HF; assumption. }
  destruct (G "energy" (or_introl eq_refl)) as (m & Em & Fm & Bm). clear G.
  assert (Hm : mean64 extra w b "energy" = inr m) by (unfold mean64; fold w in Ed; rewrite Ed; unfold bindE; rewrite Em; reflexivity).
  fold w hits in Bc, Be, Bm, Mc, Me. fold eta in Bc, Be. fold A V C in Bc. fold V in Be. fold M in Bm. rewrite sqrt_sqrt in Be by lra.
  assert (U0 : forall k, 0 <= units k) by (intros k; unfold units; apply Rmult_le_pos; [apply pos_INR|left; apply Rinv_0_lt_compat, pow_lt; lra]).
  assert (E0 : 20 * u <= eta /\ units (2 * List.length hits + 3) <= eta).
  { unfold eta, cov_error, units. set (n := List.length hits). rewrite !plus_INR. pose proof (pos_INR (2 * n)). simpl (INR 5). simpl (INR 3).
    assert (0 < / 2 ^ 52) by (apply Rinv_0_lt_compat, pow_lt; lra). pose proof (sq_nonneg rho). split; [|nra].
    rewrite <- unit_u. replace (/ 2 ^ 53) with (/ 2 ^ 52 / 2) by (change (2 ^ 53) with (2 * 2 ^ 52); rewrite Rinv_mult; field; apply pow_nonzero; lra). nra. }
  destruct E0 as [E0 E1]. pose proof u_pos as Pu. assert (He' : 0 <= eta <= / 1000) by lra.
  assert (Bm' : Rabs (B2R m - M) <= eta * M).
  { apply Rle_trans with (1 := Bm). apply Rmult_le_compat; [apply U0| |exact E1|].
    - apply Rle_trans with (average64 w hits (fun l => 0 * 0 + 0 * 0)).
      + rewrite (avg_comb w hits (fun _ => 0) (fun _ => 0) 0 0). right. ring.
      + apply (avg_le w hits W0 Pw). intros l _. pose proof (Rabs_pos (num64 w "energy" l)). lra.
    - apply (avg_le w hits W0 Pw). intros l Hl. rewrite Rabs_right by (apply Rle_ge, HE, Hl). lra. }
  assert (Ue : usual e) by exact (usual_mid e V eta Fe RV He' Be).
  assert (Um : usual m) by exact (usual_mid m M eta Fm RM He' Bm').
  assert (Ne0 : value e <> 0) by (intros Z; apply Rabs_le_inv in Be; rewrite Z in Be; nra).
  destruct (C103_dispersion extra w b v c m e Mc Hm Me (HC c Mc) Um Ue Ne0) as (y & Y & Fy & By).
  exists y. split; [exact Y|]. split; [exact Fy|]. cbv zeta in By. rewrite unit_u in By.
  apply (quotient_close C M V (value c) (value m) (value e) (value y) eta (sqrt A * sqrt V) (4 * u)); try assumption; [|lra].
  apply cov_bound; assumption.
Qed.
Print Assumptions C103_hits.

(** Two hits: x = -1, 1 and energy = 3, 5.  The dispersion is 4. *)
Definition ex_disp : list (WOp B64Num) :=
  [ WNew; WNew; WSet 0 "x" (z64 (-1)); WSet 0 "energy" (z64 3); WSet 1 "x" (z64 1); WSet 1 "energy" (z64 5) ].
Definition ex_both : Bunch := append (append bunch_new 0) 1.
Notation disp_m vars := (moment with_p no_fixed (wrun ex_disp) ex_both vars []).

Lemma disp_all : exists c m e : b64,
  disp_m ["x"; "energy"] = inr c /\ mean64 with_p (wrun ex_disp) ex_both "energy" = inr m /\ disp_m ["energy"; "energy"] = inr e /\
  (finite c = true /\ value c = 1) /\ (finite m = true /\ value m = 4) /\ (finite e = true /\ value e = 1).
Proof.
  exists (right64 (disp_m ["x"; "energy"])), (right64 (mean64 with_p (wrun ex_disp) ex_both "energy")), (right64 (disp_m ["energy"; "energy"])).
  split; [apply right_is; vm_compute; reflexivity|]. split; [apply right_is; vm_compute; reflexivity|].
  split; [apply right_is; vm_compute; reflexivity|].
  split; [split; [apply fin_SF; vm_compute; reflexivity|b64_val; lra]|].
  split; [split; [apply fin_SF; vm_compute; reflexivity|b64_val; lra]|].
  split; [apply fin_SF; vm_compute; reflexivity|b64_val; lra].
Qed.

Example C103_dispersion_ex : exists d : b64, dispersion64 with_p (wrun ex_disp) ex_both "x" = inr d /\ finite d = true /\ Rabs (value d - 4) <= 16 * unit.
Proof.
  destruct disp_all as (c & m & e & Hc & Hm & He & Qc & Qm & Qe).
  destruct (C103_dispersion with_p (wrun ex_disp) ex_both "x" c m e Hc Hm He) as (d & D & F & B).
  - apply (usual_of _ _ Qc); lra.
  - apply (usual_by m 4 100); [exact (proj1 Qm)|exact (proj2 Qm)|lra|lra].
  - apply (usual_of _ _ Qe); lra.
  - rewrite (proj2 Qe). lra.
  - exists d. split; [exact D|]. split; [exact F|]. cbv zeta in B. rewrite (proj2 Qc), (proj2 Qm), (proj2 Qe) in B.
    replace (1 * 4 / 1) with 4 in B by field. rewrite (Rabs_right 4) in B by lra. lra.
Qed.

Example C103_prime_ex : dispersion_prime64 with_p (wrun ex_disp) ex_both "x" false = dispersion64 with_p (wrun ex_disp) ex_both "px" /\
  dispersion_prime64 with_p (wrun ex_disp) ex_both "x" true = dispersion64 with_p (wrun ex_disp) ex_both "x'" /\
  dispersion_prime64 with_p (wrun ex_disp) ex_both "px" false = inl MOther.
Proof.
  split; [exact (proj1 (C103_prime with_p (wrun ex_disp) ex_both "x" "px") (or_introl eq_refl))|].
  split; [exact (proj1 (proj2 (C103_prime with_p (wrun ex_disp) ex_both "x" "x'")) (or_introl eq_refl))|].
  refine (proj2 (proj2 (C103_prime with_p (wrun ex_disp) ex_both "px" "")) _ false). intros [H|[H|[H|[H|[H|[]]]]]]; discriminate.
Qed.

(** Both hits with the energy 3. *)
Definition ex_mono : list (WOp B64Num) :=
  [ WNew; WNew; WSet 0 "x" (z64 (-1)); WSet 0 "energy" (z64 3); WSet 1 "x" (z64 1); WSet 1 "energy" (z64 3) ].
Notation mono_m vars := (moment with_p no_fixed (wrun ex_mono) ex_both vars []).
Example C103_zero_ex : dispersion64 with_p (wrun ex_mono) ex_both "x" = inl MZeroDivision.
Proof.
  apply (C103_zero with_p (wrun ex_mono) ex_both "x" (right64 (mono_m ["x"; "energy"])) (right64 (mean64 with_p (wrun ex_mono) ex_both "energy"))
    (right64 (mono_m ["energy"; "energy"]))).
  - apply right_is; vm_compute; reflexivity.
  - apply right_is; vm_compute; reflexivity.
  - apply right_is; vm_compute; reflexivity.
  - apply fin_SF; vm_compute; reflexivity.
  - b64_val; lra.
Qed.

Lemma both_w : forall l, In l (b_hits ex_both) -> float64 (wrun ex_disp) "weight" l /\ num64 (wrun ex_disp) "weight" l = 1.
Proof. intros l [<- |[<- |[]]]; apply read_w; reflexivity. Qed.
Lemma val_5 : value (b64_of_Z 5) = 5. Proof. b64_val. lra. Qed.
Lemma both_x0 : float64 (wrun ex_disp) "x" 0 /\ num64 (wrun ex_disp) "x" 0 = -1. Proof. rewrite <- val_m1. apply read_z; [reflexivity|vm_compute; reflexivity]. Qed.
Lemma both_x1 : float64 (wrun ex_disp) "x" 1 /\ num64 (wrun ex_disp) "x" 1 = 1. Proof. rewrite <- val_1. apply read_z; [reflexivity|vm_compute; reflexivity]. Qed.
Lemma both_e0 : float64 (wrun ex_disp) "energy" 0 /\ num64 (wrun ex_disp) "energy" 0 = 3. Proof. rewrite <- three_val. apply read_z; [reflexivity|vm_compute; reflexivity]. Qed.
Lemma both_e1 : float64 (wrun ex_disp) "energy" 1 /\ num64 (wrun ex_disp) "energy" 1 = 5. Proof. rewrite <- val_5. apply read_z; [reflexivity|vm_compute; reflexivity]. Qed.
Lemma both_average f : average64 (wrun ex_disp) (b_hits ex_both) f = (f 0%nat + f 1%nat) / 2.
Proof.
  unfold average64, weight64. change (b_hits ex_both) with [0%nat; 1%nat]. cbn [rsum].
  rewrite (proj2 (both_w 0%nat ltac:(left; reflexivity))), (proj2 (both_w 1%nat ltac:(right; left; reflexivity))). field.
Qed.
Lemma both_cov : true_cov (wrun ex_disp) (b_hits ex_both) "x" "x" = 1 /\ true_cov (wrun ex_disp) (b_hits ex_both) "x" "energy" = 1 /\
  true_cov (wrun ex_disp) (b_hits ex_both) "energy" "energy" = 1.
Proof. unfold true_cov. rewrite !both_average, (proj2 both_x0), (proj2 both_x1), (proj2 both_e0), (proj2 both_e1). repeat split; field. Qed.
Lemma both_mean v m : In v ["x"; "energy"] -> mean64 with_p (wrun ex_disp) ex_both v = inr m -> value m = (if String.eqb v "x" then 0 else 4).
Proof.
  intros Hv H. assert (V : value (right64 (mean64 with_p (wrun ex_disp) ex_both v)) = if String.eqb v "x" then 0 else 4).
  { destruct Hv as [<- |[<- |[]]]; [change (String.eqb "x" "x") with true|change (String.eqb "energy" "x") with false]; cbv iota; b64_val; lra. }
  rewrite H in V. exact V.
Qed.

Example C103_hits_ex : exists d : b64, dispersion64 with_p (wrun ex_disp) ex_both "x" = inr d /\ finite d = true /\ Rabs (value d - 4) <= / 2 ^ 40.
Proof.
  destruct disp_all as (c & m & e & Hc & _ & _ & Qc & _). destruct both_cov as (VA & VC & VV).
  assert (P48 : 0 < / 2 ^ 48) by (apply Rinv_0_lt_compat, pow_lt; lra). assert (P48' : / 2 ^ 48 <= / 16384) by (apply Rinv_le_contravar; lra).
  assert (U7 : units 7 <= / 2 ^ 48) by (apply tiny_units; lia). assert (U9 : units 9 <= / 2 ^ 48) by (apply tiny_units; lia).
  assert (U0 : 0 <= units 7 /\ 0 <= units 9) by (split; unfold units; apply Rmult_le_pos; try apply pos_INR; left; apply Rinv_0_lt_compat, pow_lt; lra).
  assert (CE : 0 <= cov_error 2 (4 * / 2 ^ 48) <= 3 * / 2 ^ 48).
  { unfold cov_error; change (2 * 2 + 5)%nat with 9%nat. assert (0 <= / 2 ^ 48 * / 2 ^ 48 <= / 16384 * / 2 ^ 48) by nra. lra. }
  assert (R1 : / 2 ^ 100 <= 1 <= 2 ^ 100).
  { assert (1 <= 2 ^ 100) by (apply pow_R1_Rle; lra). split; [|lra]. rewrite <- Rinv_1. apply Rinv_le_contravar; lra. }
  assert (VM : average64 (wrun ex_disp) (b_hits ex_both) (num64 (wrun ex_disp) "energy") = 4) by (rewrite both_average, (proj2 both_e0), (proj2 both_e1); field).
  destruct (C103_hits with_p ex_disp ex_both "x" (4 * / 2 ^ 48)) as (d & D & F & B).
  - repeat constructor.
  - reflexivity.
  - apply ones_sane; [discriminate|simpl; lia|exact both_w].
  - intros v l [<- |[<- |[]]] [<- |[<- |[]]].
    + split; [apply both_x0|]. rewrite (proj2 both_x0). apply size_ok. rewrite Rabs_left; lra.
    + split; [apply both_x1|]. rewrite (proj2 both_x1). apply size_ok. rewrite Rabs_right; lra.
    + split; [apply both_e0|]. rewrite (proj2 both_e0). apply size_ok. rewrite Rabs_right; lra.
    + split; [apply both_e1|]. rewrite (proj2 both_e1). apply size_ok. rewrite Rabs_right; lra.
  - intros v mm l Hv Hmm Hl. change (B2R mm) with (value mm). rewrite (both_mean v mm Hv Hmm).
    destruct Hv as [<- |[<- |[]]]; [change (String.eqb "x" "x") with true|change (String.eqb "energy" "x") with false]; cbv iota; destruct Hl as [<- |[<- |[]]]; apply size_ok.
    + rewrite (proj2 both_x0), Rabs_left; lra.
    + rewrite (proj2 both_x1), Rabs_right; lra.
    + rewrite (proj2 both_e0), Rabs_left; lra.
    + rewrite (proj2 both_e1), Rabs_right; lra.
  - intros c' Hc'. assert (X : inr c = @inr MErr b64 c') by (rewrite <- Hc; exact Hc'). injection X as <-. apply (usual_of _ _ Qc); lra.
  - intros l [<- |[<- |[]]]; [rewrite (proj2 both_e0)|rewrite (proj2 both_e1)]; lra.
  - rewrite VM. assert (2 ^ 3 <= 2 ^ 100) by (apply Rle_pow; [lra|lia]). lra.
  - rewrite VA. lra.
  - rewrite VV. exact R1.
  - lra.
  - unfold near_axis. rewrite VA, sqrt_1, both_average, (proj2 both_x0), (proj2 both_x1).
    rewrite (Rabs_left (-1)), (Rabs_right 1) by lra. change (2 * List.length (b_hits ex_both) + 3)%nat with 7%nat. lra.
  - unfold near_axis. rewrite VV, sqrt_1, both_average, (proj2 both_e0), (proj2 both_e1).
    rewrite (Rabs_right 3), (Rabs_right 5) by lra. change (2 * List.length (b_hits ex_both) + 3)%nat with 7%nat. lra.
  - change (List.length (b_hits ex_both)) with 2%nat. lra.
  - exists d. split; [exact D|]. split; [exact F|]. rewrite VA, VC, VV, VM, sqrt_1 in B. replace (1 * 4 / 1) with 4 in B by field.
    replace (1 * 1 * 4 / 1) with 4 in B by field. change (List.length (b_hits ex_both)) with 2%nat in B. apply Rle_trans with (1 := B).
    replace (/ 2 ^ 40) with (256 * / 2 ^ 48); [lra|]. change (2 ^ 48) with (2 * (2 * (2 * (2 * (2 * (2 * (2 * (2 * 2 ^ 40)))))))). field; try (apply pow_nonzero; lra).
Qed.
