(** Statistics of bunches in double precision. *)
From Coq Require Import Reals ZArith String List Bool Lia Lra Psatz.
From Flocq Require Import Core BinarySingleNaN.
From Verif Require Import Num WeightModel HitcoreModel HitcoreSpec HitcoreProofs PyLibModel BunchModel BunchSpec MomentModel MomentSpec
  MomentProofs FloatModel FloatArith FloatSpec.
Import ListNotations.
Open Scope string_scope.
Open Scope list_scope.
Open Scope R_scope.

Notation N := B64Num.

Lemma pow2_nat k : pow2 (Z.of_nat k) = 2 ^ k.
Proof. rewrite bpow_powerRZ, pow_powerRZ. reflexivity. Qed.
Lemma pow2_neg k : pow2 (- Z.of_nat k) = / 2 ^ k.
Proof. rewrite bpow_opp, pow2_nat. reflexivity. Qed.

Lemma sane_scaled x : sane_size x -> scaled 100 x.
Proof.
  intros [-> |H]; [left; reflexivity|right].
  change 100%Z with (Z.of_nat 100). rewrite pow2_neg, pow2_nat. exact H.
Qed.

(** ---- the folds of the model as sums ---- *)
Section Folds.
  Variable w : World N.
  Hypothesis cur : w_cur w = 0%nat.

  Lemma core_ctx64 : core_ctx w = cur_ctx w.
  Proof. unfold core_ctx, cur_ctx. rewrite cur. reflexivity. Qed.

  Lemma float_dbl l v x : hit_get w l v = Some (@PFloat N x) ->
    exists h k, w_hits w l = Some h /\ assoc get_dbl_map v = Some k /\ x = read_dbl (cur_ctx w) h k.
  Proof.
    unfold hit_get, core_get. destruct (w_hits w l) as [h|]; [|discriminate].
    destruct (assoc get_dbl_map v) as [k|] eqn:E.
    - intros H. inversion H. exists h, k. auto.
    - destruct (assoc get_int_map v); discriminate.
  Qed.

  (** The weight of a hit, as a double. *)
  Definition wt64 (l : nat) : b64 :=
    match hit_get w l "weight" with Some (PFloat x) => x | _ => B754_zero false end.

  Lemma num64_wt l : num64 w "weight" l = val (wt64 l).
  Proof. unfold num64, wt64. destruct (hit_get w l "weight") as [[x| |]|]; reflexivity. Qed.

  Lemma wt64_read l h : w_hits w l = Some h -> wt64 l = read_dbl (cur_ctx w) h DWeight.
  Proof. intros H. unfold wt64, hit_get, core_get. rewrite H. reflexivity. Qed.

  Lemma float64_hit v l : float64 w v l -> exists h, w_hits w l = Some h.
  Proof. intros (x & H & _). apply float_dbl in H. destruct H as (h & _ & H & _). eauto. Qed.

  Lemma bunch_weight_fold b : (forall l, In l (b_hits b) -> float64 w "weight" l) ->
    bunch_weight w b = fold_left (fun s l => Bplus mode_NE s (wt64 l)) (b_hits b) (B754_zero false).
  Proof.
    intros H. unfold bunch_weight.
    replace (nofZ 0 : N) with (B754_zero false : b64) by reflexivity.
    generalize (B754_zero false : b64). induction (b_hits b) as [|l hs IH]; intros z; simpl; [reflexivity|].
    destruct (H l (or_introl eq_refl)) as (x & Hx & _).
    unfold wt64 at 2. rewrite Hx. apply IH. intros l' Hl'. apply H. right. exact Hl'.
  Qed.

  Lemma core_weight_fold hs : (forall l, In l hs -> float64 w "weight" l) ->
    core_bunch_weight w (map Some hs) = fold_left (fun s l => Bplus mode_NE s (wt64 l)) hs (B754_zero false).
  Proof.
    intros H. unfold core_bunch_weight. rewrite core_ctx64. change (n0 : N) with (B754_zero false : b64).
    generalize (B754_zero false : b64). induction hs as [|l hs IH]; intros z; [reflexivity|]. rewrite map_cons. cbn [fold_left]. unfold core_hit at 2.
    destruct (float64_hit _ _ (H l (or_introl eq_refl))) as (h & Hh). rewrite Hh, <- (wt64_read l h Hh).
    apply IH. intros l' Hl'. apply H. right. exact Hl'.
  Qed.

  (** The term of one hit. *)
  Definition var64 (v : string) (l : nat) : b64 :=
    match hit_get w l v with Some (PFloat x) => x | _ => B754_zero false end.
  Definition term64 (W : b64) (vars : list string) (ms : string -> N) (l : nat) : b64 :=
    fold_left (fun m p => Bmult mode_NE m (Bminus mode_NE (fst p) (snd p)))
      (map (fun v => (var64 v l, ms v)) vars) (Bdiv mode_NE (wt64 l) W).

  Lemma num64_var v l : num64 w v l = val (var64 v l).
  Proof. unfold num64, var64. destruct (hit_get w l v) as [[x| |]|]; reflexivity. Qed.

  Lemma keys_of vars l : (forall v, In v vars -> float64 w v l) ->
    exists fs, all_some (map (assoc get_dbl_map) vars) = Some fs /\ Forall2 (fun v k => assoc get_dbl_map v = Some k) vars fs.
  Proof.
    induction vars as [|v vars IH]; intros H; [exists []; split; constructor|].
    destruct IH as (fs & E & F); [intros; apply H; right; assumption|].
    destruct (H v (or_introl eq_refl)) as (x & Hx & _). apply float_dbl in Hx. destruct Hx as (h & k & _ & Hk & _).
    exists (k :: fs). split; [|constructor; assumption].
    rewrite map_cons, Hk. cbn [all_some]. rewrite E. reflexivity.
  Qed.

  Lemma prod_fold l h fs vars (ms : string -> N) : w_hits w l = Some h ->
    Forall2 (fun v k => assoc get_dbl_map v = Some k) vars fs -> forall s : b64,
    fold_left (fun m p => nmul m (nsub (read_dbl (cur_ctx w) h (fst p)) (snd p))) (combine fs (map ms vars)) (s : N)
    = fold_left (fun m p => Bmult mode_NE m (Bminus mode_NE (fst p) (snd p))) (map (fun v => (var64 v l, ms v)) vars) s.
  Proof.
    intros Hh F. induction F as [|v k vars fs Hk F IH]; intros s; [reflexivity|]. simpl map. simpl combine. simpl fold_left.
    rewrite IH. do 3 f_equal. unfold var64, hit_get, core_get. rewrite Hh, Hk. reflexivity.
  Qed.

  Lemma core_moment_fold hs vars (fd : list (string * N)) (ms : string -> N) : hs <> [] ->
    (forall l, In l hs -> float64 w "weight" l) -> (forall v l, In v vars -> In l hs -> float64 w v l) ->
    (forall v, In v vars -> map_get fd v = ms v) ->
    core_moment w (map Some hs) vars fd =
    Some (fold_left (fun s l => Bplus mode_NE s (term64 (core_bunch_weight w (map Some hs)) vars ms l)) hs (B754_zero false)).
  Proof.
    intros Hne Hw Hv Hm. unfold core_moment. rewrite core_ctx64.
    destruct hs as [|l0 hs0] eqn:Ehs; [congruence|]. rewrite <- Ehs in *.
    assert (Hl0 : In l0 hs) by (rewrite Ehs; left; reflexivity).
    destruct (keys_of vars l0) as (fs & E & F); [intros; apply Hv; assumption|]. rewrite E. cbv zeta.
    apply f_equal. assert (Em : map (map_get fd) vars = map ms vars) by (apply map_ext_in; auto). rewrite Em.
    set (W := core_bunch_weight w (map Some hs)). change (n0 : N) with (B754_zero false : b64).
    generalize (B754_zero false : b64). clearbody W. clear Hl0 Ehs Hne Hv.
    induction hs as [|l hs IH]; intros z; [reflexivity|]. rewrite !map_cons. cbn [fold_left]. unfold core_hit at 2.
    destruct (float64_hit _ _ (Hw l (or_introl eq_refl))) as (h & Hh).
    rewrite Hh, (prod_fold l h fs vars ms Hh F), <- (wt64_read l h Hh).
    apply IH. intros l' Hl'. apply Hw. right. exact Hl'.
  Qed.
End Folds.

(** ---- sizes ---- *)
Lemma u_50 : 2 ^ 50 * u <= / 8.
Proof.
  unfold u. rewrite <- (pow2_nat 50), <- bpow_plus. change (Z.of_nat 50 + -53)%Z with (-3)%Z. simpl. lra.
Qed.

Lemma rsum_ge_each {A} (f : A -> R) c l : (forall a, In a l -> c <= f a) -> INR (length l) * c <= rsum f l.
Proof.
  induction l as [|a l IH]; intros H; [simpl; lra|]. cbn [length rsum]. rewrite S_INR.
  pose proof (H a (or_introl eq_refl)). assert (INR (length l) * c <= rsum f l) by (apply IH; intros; apply H; right; assumption). lra.
Qed.
Lemma rsum_le_each {A} (f : A -> R) c l : (forall a, In a l -> f a <= c) -> rsum f l <= INR (length l) * c.
Proof.
  induction l as [|a l IH]; intros H; [simpl; lra|]. cbn [length rsum]. rewrite S_INR.
  pose proof (H a (or_introl eq_refl)). assert (rsum f l <= INR (length l) * c) by (apply IH; intros; apply H; right; assumption). lra.
Qed.

Section Sizes.
  Variable w : World N.
  Variable hs : list nat.
  Hypothesis sane : sane_weights w hs.
  Let n := length hs.
  Let W := weight64 w hs.
  Let Wf : b64 := fold_left (fun s l => Bplus mode_NE s (wt64 w l)) hs (B754_zero false).

  Lemma sane_float l : In l hs -> float64 w "weight" l.
  Proof. intros H. apply sane, H. Qed.

  Lemma wt64_fin l : In l hs -> fin (wt64 w l) = true.
  Proof. intros H. destruct (sane_float l H) as (x & Hx & F). unfold wt64. rewrite Hx. exact F. Qed.

  Lemma wt64_size l : In l hs -> / 2 ^ 100 <= val (wt64 w l) <= 2 ^ 100.
  Proof. intros H. rewrite <- num64_wt. apply sane, H. Qed.

  Lemma W_pos : / 10 ^ 8 <= W.
  Proof. apply sane. Qed.
  Lemma W_gt0 : 0 < W.
  Proof. pose proof W_pos. assert (0 < / 10 ^ 8) by (apply Rinv_0_lt_compat, pow_lt; lra). lra. Qed.

  Lemma hs_ne : hs <> [].
  Proof.
    intros E. pose proof W_gt0 as H. unfold W, weight64 in H. rewrite E in H. simpl in H. lra.
  Qed.
  Lemma n_le : INR n <= 2 ^ 50.
  Proof. apply sane. Qed.
  Lemma nu : INR n * u <= / 8.
  Proof. pose proof n_le. pose proof u_50. pose proof u_pos. nra. Qed.
  Lemma n_ge : 1 <= INR n.
  Proof. unfold n. pose proof hs_ne. destruct hs; [congruence|]. cbn [length]. rewrite S_INR. pose proof (pos_INR (length l)). lra. Qed.

  Lemma W_scaled : scaled 150 W.
  Proof.
    right. rewrite Rabs_right by (left; apply W_gt0). split.
    - apply Rle_trans with (INR n * / 2 ^ 100).
      + pose proof n_ge. rewrite (pow2_neg 150 : pow2 (Z.opp 150) = _).
        assert (/ 2 ^ 150 <= / 2 ^ 100) by (apply Rinv_le_contravar; [apply pow_lt; lra|apply Rle_pow; [lra|lia]]).
        assert (0 < / 2 ^ 100) by (apply Rinv_0_lt_compat, pow_lt; lra). nra.
      + apply rsum_ge_each. intros l Hl. apply sane, Hl.
    - apply Rle_trans with (INR n * 2 ^ 100).
      + apply rsum_le_each. intros l Hl. apply sane, Hl.
      + change 150%Z with (Z.of_nat (50 + 100)). rewrite pow2_nat, pow_add. pose proof n_le.
        apply Rmult_le_compat_r; [apply pow_le; lra|assumption].
  Qed.

  Lemma wt64_pos l : In l hs -> 0 <= val (wt64 w l).
  Proof. intros H. pose proof (wt64_size l H). assert (0 < / 2 ^ 100) by (apply Rinv_0_lt_compat, pow_lt; lra). lra. Qed.

  Lemma weight_ok : fin Wf = true /\ exists G, near n G /\ val Wf = W * G.
  Proof.
    destruct (sum_ok (wt64 w) (2 ^ 100) ltac:(apply pow_le; lra) hs (B754_zero false) 0) as (F & _ & g & Hg & q & Hq & E).
    - reflexivity.
    - simpl. rewrite Rabs_R0. lra.
    - intros l Hl. split; [apply wt64_fin, Hl|]. pose proof (wt64_size l Hl).
      assert (0 < / 2 ^ 100) by (apply Rinv_0_lt_compat, pow_lt; lra). rewrite Rabs_right by lra. lra.
    - simpl plus. fold n. pose proof nu. lra.
    - simpl plus. fold n. apply Rle_trans with (2 ^ (1 + 50 + 100)).
      + rewrite !pow_add, pow_1. pose proof n_le. apply Rmult_le_compat_r; [apply pow_le; lra|lra].
      + rewrite <- pow2_nat. apply bpow_le. lia.
    - split; [exact F|]. fold Wf in E. fold n in Hq.
      assert (Eq : val Wf = q). { rewrite E. simpl (val (B754_zero false)). lra. }
      assert (EW : rsum (fun a => val (wt64 w a)) hs = W).
      { unfold W, weight64. apply rsum_ext. intros l _. symmetry. apply num64_wt. }
      pose proof (perturbed_pos n _ _ _ wt64_pos Hq) as P. rewrite EW, <- Eq in P.
      pose proof W_gt0 as W0. exists (val Wf / W). split.
      + split; apply Rmult_le_reg_r with W; trivial; unfold Rdiv; rewrite Rmult_assoc, Rinv_l by lra; lra.
      + field. lra.
  Qed.

  Lemma tol_small : fin (weight_tol : N) = true /\ val (weight_tol : N) <= 2 * / 10 ^ 9.
  Proof.
    unfold weight_tol. change (n1 : N) with (b64_of_Z 1). change (nofZ 1000000000 : N) with (b64_of_Z 1000000000).
    change (ndiv (n := N)) with (Bdiv (prec := prec64) (emax := emax64) mode_NE).
    assert (P : pow2 1000 >= 10 ^ 10).
    { apply Rle_ge. apply Rle_trans with (pow2 (Z.of_nat 40)); [rewrite pow2_nat; lra|apply bpow_le; lia]. }
    destruct (ofZ_ok 1 ltac:(lia) ltac:(rewrite Rabs_right by lra; lra)) as (F1 & d1 & D1 & E1).
    destruct (ofZ_ok 1000000000 ltac:(lia) ltac:(rewrite Rabs_right by lra; lra)) as (F2 & d2 & D2 & E2).
    apply Rabs_le_inv in D1. apply Rabs_le_inv in D2. pose proof u_small as U.
    assert (Q : val (b64_of_Z 1) / val (b64_of_Z 1000000000) = / 10 ^ 9 * ((1 + d1) / (1 + d2))).
    { rewrite E1, E2. field. lra. }
    assert (Q2 : / 2 <= (1 + d1) / (1 + d2) <= 3 / 2).
    { split; apply Rmult_le_reg_r with (1 + d2); try lra; unfold Rdiv; rewrite Rmult_assoc, Rinv_l by lra; lra. }
    destruct (div_ok (b64_of_Z 1) (b64_of_Z 1000000000)) as (F3 & d3 & D3 & E3).
    - exact F1.
    - rewrite E2. lra.
    - rewrite Q, Rabs_right by lra. lra.
    - right. rewrite Q, Rabs_right by lra.
      apply Rle_trans with (pow2 (- Z.of_nat 40)); [apply bpow_le; lia|]. rewrite pow2_neg. lra.
    - split; [exact F3|]. rewrite E3, Q. apply Rabs_le_inv in D3. set (y := (1 + d1) / (1 + d2)) in *. nra.
  Qed.

  Lemma not_light b : b_hits b = hs -> nltb (nabs (bunch_weight w b)) (weight_tol : N) = false.
  Proof.
    intros EH. rewrite bunch_weight_fold by (intros l Hl; apply sane_float; rewrite <- EH; exact Hl). rewrite EH. fold Wf.
    destruct weight_ok as (F & G & HG & E). destruct tol_small as (Ft & Et).
    apply near_half in HG; [|pose proof nu; lra]. pose proof W_pos as WP.
    assert (L : 4 * / 10 ^ 9 <= val Wf).
    { rewrite E. assert (8 * / 10 ^ 9 <= / 10 ^ 8) by lra. nra. }
    unfold nabs. change (nltb (n := N)) with (Bltb (prec := prec64) (emax := emax64)). change (n0 : N) with (B754_zero false : b64).
    assert (NN : Bltb Wf (B754_zero false) = false).
    { rewrite Bltb_correct by (trivial; reflexivity). apply Rlt_bool_false. simpl. lra. }
    rewrite NN. rewrite Bltb_correct by assumption. apply Rlt_bool_false. lra.
  Qed.

  (** ---- the terms of a moment ---- *)
  Variable vars : list string.
  Variable ms : string -> N.
  Hypothesis short : (length vars <= 6)%nat.
  Hypothesis reads : forall v l, In v vars -> In l hs -> float64 w v l.
  Hypothesis ms_fin : forall v, In v vars -> fin (ms v) = true.
  Hypothesis dev : forall v l, In v vars -> In l hs -> sane_size (num64 w v l - val (ms v)).
  Let k := length vars.
  Definition dev64 (l : nat) : R := rprod (fun v => num64 w v l - val (ms v)) vars.

  Lemma k6 : (k <= 6)%nat.
  Proof. exact short. Qed.

  Lemma rprod_map {A B} (g : B -> A) (f : A -> R) l : rprod f (map g l) = rprod (fun x => f (g x)) l.
  Proof. induction l; simpl; congruence. Qed.

  Lemma few j : (j <= n + 13)%nat -> INR j * u <= / 4.
  Proof.
    intros H. apply le_INR in H. rewrite plus_INR in H. pose proof nu. pose proof u_small. pose proof u_pos.
    replace (INR 13) with 13 in H by (simpl; lra). nra.
  Qed.

  Lemma ratio_scaled l : In l hs -> scaled 250 (num64 w "weight" l / W).
  Proof.
    intros Hl. change 250%Z with (100 + 150)%Z. apply scaled_mul.
    - apply sane_scaled. right. destruct sane as (S1 & _). destruct (S1 l Hl) as (_ & S2).
      rewrite Rabs_right; [exact S2|]. assert (0 < / 2 ^ 100) by (apply Rinv_0_lt_compat, pow_lt; lra). lra.
    - pose proof W_gt0 as W0. destruct W_scaled as [Z|[L U]]; [lra|]. right. rewrite Rabs_inv.
      rewrite Rabs_right in * by lra. rewrite bpow_opp in *. split.
      + apply Rinv_le_contravar; [exact W0|exact U].
      + rewrite <- (Rinv_inv (pow2 150)). apply Rinv_le_contravar; [apply Rinv_0_lt_compat, bpow_gt_0|exact L].
  Qed.

  Lemma term_ok l : In l hs ->
    fin (term64 w Wf vars ms l) = true /\
    exists h, near (n + 1 + 2 * k) h /\ val (term64 w Wf vars ms l) = num64 w "weight" l / W * dev64 l * h.
  Proof.
    intros Hl. destruct weight_ok as (F & G & HG & E). pose proof W_gt0 as W0.
    pose proof (near_pos _ _ HG) as G0. pose proof (ratio_scaled l Hl) as RS.
    assert (Q : val (wt64 w l) / val Wf = num64 w "weight" l / W * / G).
    { rewrite E, <- num64_wt. field. lra. }
    assert (RS' : scaled 251 (val (wt64 w l) / val Wf)).
    { rewrite Q. apply (scaled_near 250 n); [pose proof nu; lra|exact RS|apply near_inv, HG]. }
    apply (scaled_le 251 1000) in RS'; [|lia].
    destruct (div_ok (wt64 w l) Wf) as (F3 & d & D & E3).
    - apply wt64_fin, Hl.
    - rewrite E. nra.
    - destruct RS' as [-> |[_ X]]; [rewrite Rabs_R0; apply bpow_ge_0|exact X].
    - destruct RS' as [Z|[X _]]; [left; exact Z|right; exact X].
    - unfold term64.
      pose proof (prod_ok (map (fun v => (var64 w v l, (ms v : b64))) vars) (Bdiv mode_NE (wt64 w l) Wf)
        (num64 w "weight" l / W) (n + 1) 250 100 F3) as P.
      rewrite map_length, rprod_map in P. destruct P as (P1 & h & P2 & P3).
      + exists (/ G * (1 + d)). split; [apply near_mul; [apply near_inv, HG|apply near_one, D]|].
        rewrite E3, Q. ring.
      + exact RS.
      + lia.
      + lia.
      + intros p Hp. apply in_map_iff in Hp. destruct Hp as (v & <- & Hv). cbn [fst snd]. repeat split.
        * destruct (reads v l Hv Hl) as (x & Hx & Fx). unfold var64. rewrite Hx. exact Fx.
        * apply ms_fin, Hv.
        * rewrite <- num64_var. apply sane_scaled, dev; assumption.
      + fold k. pose proof k6. lia.
      + fold k. pose proof (few (n + 1 + 2 * k) ltac:(pose proof k6; lia)). lra.
      + split; [exact P1|]. exists h. split; [exact P2|]. etransitivity; [exact P3|]. unfold dev64. do 2 f_equal.
        apply rprod_ext. intros v _. cbn [fst snd]. rewrite num64_var. reflexivity.
  Qed.

  Lemma dev_scaled l : In l hs -> scaled (100 * Z.of_nat k) (dev64 l).
  Proof.
    intros Hl. unfold dev64, k. assert (H : forall v, In v vars -> scaled 100 (num64 w v l - val (ms v))).
    { intros v Hv. apply sane_scaled, dev; assumption. }
    clear - H. induction vars as [|v vs IH].
    - right. simpl. rewrite Rabs_R1. lra.
    - cbn [length rprod]. replace (100 * Z.of_nat (S (length vs)))%Z with (100 + 100 * Z.of_nat (length vs))%Z by lia.
      apply scaled_mul; [apply H; left; reflexivity|apply IH; intros; apply H; right; assumption].
  Qed.

  Lemma moment_ok :
    let r := fold_left (fun s l => Bplus mode_NE s (term64 w Wf vars ms l)) hs (B754_zero false) in
    fin r = true /\ perturbed (2 * n + 2 * k + 1) (fun l => num64 w "weight" l / W * dev64 l) hs (val r) /\
    Rabs (val r - average64 w hs dev64) <= INR (2 * n + 2 * k + 1) * pow2 (-52) * average64 w hs (fun l => Rabs (dev64 l)).
  Proof.
    pose proof W_gt0 as W0.
    destruct (sum_ok (term64 w Wf vars ms) (pow2 900) ltac:(apply bpow_ge_0) hs (B754_zero false) 0) as (F & _ & g & Hg & q & Hq & E).
    - reflexivity.
    - simpl. rewrite Rabs_R0. lra.
    - intros l Hl. destruct (term_ok l Hl) as (F & h & Hh & E). split; [exact F|].
      rewrite E. assert (S : scaled 900 (num64 w "weight" l / W * dev64 l * h)).
      { apply (scaled_le (250 + 100 * Z.of_nat k + 1)); [pose proof k6; lia|].
        apply (scaled_near _ (n + 1 + 2 * k)); [pose proof (few (n + 1 + 2 * k) ltac:(pose proof k6; lia)); lra| |exact Hh].
        apply scaled_mul; [apply ratio_scaled, Hl|apply dev_scaled, Hl]. }
      destruct S as [-> |[_ X]]; [rewrite Rabs_R0; apply bpow_ge_0|exact X].
    - simpl plus. fold n. pose proof nu. lra.
    - simpl plus. fold n. apply Rle_trans with (2 ^ (1 + 50) * pow2 900).
      + rewrite pow_add, pow_1. pose proof n_le. apply Rmult_le_compat_r; [apply bpow_ge_0|lra].
      + rewrite <- pow2_nat, <- bpow_plus. apply bpow_le. lia.
    - cbv zeta. split; [exact F|].
      assert (Eq : val (fold_left (fun s l => Bplus mode_NE s (term64 w Wf vars ms l)) hs (B754_zero false)) = q).
      { rewrite E. simpl (val (B754_zero false)). lra. }
      rewrite Eq. fold n in Hq.
      pose proof (perturbed_terms (n + 1 + 2 * k) n (fun l => num64 w "weight" l / W * dev64 l) _ hs q
        (fun a Ha => proj2 (term_ok a Ha)) Hq) as P.
      split; [replace (2 * n + 2 * k + 1)%nat with (n + 1 + 2 * k + n)%nat by lia; exact P|].
      apply perturbed_error in P; [|].
      + assert (A : forall f, rsum (fun l => num64 w "weight" l / W * f l) hs = average64 w hs f).
        { intros f. unfold average64. fold W. unfold Rdiv. rewrite Rmult_comm, <- rsum_scale. apply rsum_ext. intros; ring. }
        rewrite A in P. apply Rle_trans with (1 := P).
        rewrite (rsum_ext _ (fun l => num64 w "weight" l / W * Rabs (dev64 l))).
        * rewrite A. replace (n + 1 + 2 * k + n)%nat with (2 * n + 2 * k + 1)%nat by lia.
          apply Req_le. unfold u. replace (pow2 (-52)) with (2 * pow2 (-53)) by (simpl; lra). ring.
        * intros l Hl. rewrite Rabs_mult. f_equal. apply Rabs_right, Rle_ge.
          unfold Rdiv. apply Rmult_le_pos; [|left; apply Rinv_0_lt_compat; lra].
          rewrite num64_wt. pose proof (wt64_size l Hl). assert (0 < / 2 ^ 100) by (apply Rinv_0_lt_compat, pow_lt; lra). lra.
      + replace (n + 1 + 2 * k + n)%nat with (n + (n + 1 + 2 * k))%nat by lia. rewrite plus_INR, Rmult_plus_distr_r.
        pose proof nu. pose proof (few (n + 1 + 2 * k) ltac:(pose proof k6; lia)). lra.
  Qed.
End Sizes.

(** ---- the statistics ---- *)
Section Statistics.
  Variable extra : World N -> list nat -> string -> nat -> option (PyVal N).
  Variable w : World N.
  Hypothesis cur : w_cur w = 0%nat.
  Variable b : Bunch.
  Hypothesis step : in_step b.
  Hypothesis sane : sane_weights w (b_hits b).

  Lemma weight_error :
    fin (bunch_weight w b) = true /\
    Rabs (val (bunch_weight w b) - weight64 w (b_hits b))
      <= INR (length (b_hits b)) * pow2 (-52) * weight64 w (b_hits b).
  Proof.
    rewrite (bunch_weight_fold w b) by (intros; eapply sane_float; eassumption).
    destruct (weight_ok w _ sane) as (F & G & HG & E). split; [exact F|]. rewrite E.
    pose proof (W_gt0 w _ sane) as W0. set (W := weight64 w (b_hits b)) in *.
    apply near_close in HG; [|pose proof (nu w _ sane); lra].
    replace (W * G - W) with (W * (G - 1)) by ring. rewrite Rabs_mult, (Rabs_right W) by lra.
    replace (pow2 (-52)) with (2 * u) by (unfold u; simpl; lra). nra.
  Qed.

  Lemma float_map_get (d : list (string * PyVal N)) (fd : list (string * N)) v :
    float_map d = Some fd -> map_get fd v = match assoc d v with Some (PFloat x) => x | _ => B754_zero false end.
  Proof.
    unfold float_map, map_get. revert fd. induction d as [|[k y] d IH]; intros fd; cbn [map all_some snd fst assoc].
    - intros H. inversion H. reflexivity.
    - destruct y as [x| |]; try discriminate. destruct (all_some _) as [r|] eqn:E; [|discriminate].
      intros H. inversion H. subst. cbn [assoc]. destruct (String.eqb k v); [reflexivity|]. apply IH. reflexivity.
  Qed.

  Lemma moment_about_ok vars (d : list (string * PyVal N)) (fd : list (string * N)) (ms : string -> N) :
    (length vars <= 6)%nat ->
    (forall v l, In v vars -> In l (b_hits b) -> float64 w v l) ->
    float_map d = Some fd -> (forall v, In v vars -> map_get fd v = ms v) ->
    (forall v, In v vars -> fin (ms v) = true) ->
    (forall v l, In v vars -> In l (b_hits b) -> sane_size (num64 w v l - val (ms v))) ->
    exists m : N, moment_about extra no_fixed w b vars d = inr m /\ fin m = true /\
      perturbed (2 * length (b_hits b) + 2 * length vars + 1)
        (fun l => num64 w "weight" l / weight64 w (b_hits b) * rprod (fun v => num64 w v l - val (ms v)) vars) (b_hits b) (val m) /\
      Rabs (val m - average64 w (b_hits b) (fun l => rprod (fun v => num64 w v l - val (ms v)) vars))
      <= INR (2 * length (b_hits b) + 2 * length vars + 1) * pow2 (-52) *
         average64 w (b_hits b) (fun l => Rabs (rprod (fun v => num64 w v l - val (ms v)) vars)).
  Proof.
    intros K Hr Hd Hm Hf Hs. unfold moment_about. rewrite (not_light w _ sane b eq_refl).
    unfold fixed_cov. cbn [f_covs no_fixed]. rewrite Hd, step.
    rewrite (core_moment_fold w cur (b_hits b) vars fd ms); trivial.
    2: apply (hs_ne w _ sane). 2: intros; eapply sane_float; eassumption.
    rewrite (core_weight_fold w cur) by (intros; eapply sane_float; eassumption).
    eexists. split; [reflexivity|]. apply (moment_ok w (b_hits b) sane vars ms K Hr Hf Hs).
  Qed.

  (** What the mean dict holds for v. *)
  Definition good_mean (v : string) (m : N) : Prop :=
    fin m = true /\
    Rabs (val m - average64 w (b_hits b) (num64 w v))
      <= INR (2 * length (b_hits b) + 3) * pow2 (-52) * average64 w (b_hits b) (fun l => Rabs (num64 w v l)).

  Lemma one_mean v :
    (forall l, In l (b_hits b) -> float64 w v l /\ sane_size (num64 w v l)) ->
    exists m : N, moment_about extra no_fixed w b [v] [(v, @PFloat N (n0 : N))] = inr m /\ good_mean v m.
  Proof.
    intros H.
    destruct (moment_about_ok [v] [(v, @PFloat N (n0 : N))] [(v, n0 : N)] (fun _ => n0 : N)) as (m & E & F & _ & B).
    - simpl. lia.
    - intros v' l [<- |[]] Hl. apply H, Hl.
    - reflexivity.
    - intros v' [<- |[]]. unfold map_get. cbn [assoc]. rewrite String.eqb_refl. reflexivity.
    - reflexivity.
    - intros v' l [<- |[]] Hl. replace (num64 w v l - val (n0 : N)) with (num64 w v l) by (simpl; lra). apply H, Hl.
    - exists m. split; [exact E|]. split; [exact F|].
      assert (X : forall l, rprod (fun v => num64 w v l - val (n0 : N)) [v] = num64 w v l) by (intros; simpl; lra).
      assert (A : forall f g, (forall l, f l = g l) -> average64 w (b_hits b) f = average64 w (b_hits b) g).
      { intros f g Q. unfold average64. f_equal. apply rsum_ext. intros l _. rewrite Q. reflexivity. }
      rewrite (A _ (num64 w v)) in B by apply X.
      rewrite (A (fun l => Rabs (rprod (fun v => num64 w v l - val (n0 : N)) [v])) (fun l => Rabs (num64 w v l))) in B by (intros l; f_equal; apply X).
      replace (2 * length (b_hits b) + 3)%nat with (2 * length (b_hits b) + 2 * length [v] + 1)%nat by (simpl; lia). exact B.
  Qed.

  Definition good_dict (vars : list string) (d : list (string * PyVal N)) : Prop :=
    (forall v, In v vars -> exists m, assoc d v = Some (@PFloat N m) /\ good_mean v m) /\
    (exists fd, float_map d = Some fd).

  Lemma assoc_app_new {A} (d : list (string * A)) v x v' :
    assoc d v = None -> assoc (d ++ [(v, x)]) v' = match assoc d v' with Some y => Some y | None => if String.eqb v v' then Some x else None end.
  Proof.
    intros _. induction d as [|[k y] d IH]; cbn [app assoc]; [reflexivity|]. destruct (String.eqb k v'); [reflexivity|exact IH].
  Qed.

  Lemma float_map_snoc (d : list (string * PyVal N)) fd v (m : N) : float_map d = Some fd ->
    float_map (d ++ [(v, @PFloat N m)]) = Some (fd ++ [(v, m)]).
  Proof.
    unfold float_map. revert fd. induction d as [|[k y] d IH]; intros fd; cbn [app map all_some snd fst].
    - intros H. inversion H. reflexivity.
    - destruct y as [x| |]; try discriminate. destruct (all_some _) as [r|] eqn:E; [|discriminate].
      intros H. inversion H. rewrite (IH r eq_refl). reflexivity.
  Qed.

  Lemma mean_loop_ok vars : (forall v l, In v vars -> In l (b_hits b) -> float64 w v l /\ sane_size (num64 w v l)) ->
    forall done acc, good_dict done acc -> (forall v, assoc acc v <> None -> In v done) ->
    exists d, mean_loop extra no_fixed w b vars acc = inr d /\ good_dict (done ++ vars) d /\
      (forall v, assoc d v <> None -> In v (done ++ vars)).
  Proof.
    induction vars as [|v vars IH]; intros H done acc G K.
    - exists acc. rewrite app_nil_r. auto.
    - assert (H' : forall v l, In v vars -> In l (b_hits b) -> float64 w v l /\ sane_size (num64 w v l))
        by (intros; apply H; [right|]; assumption).
      replace (done ++ v :: vars) with ((done ++ [v]) ++ vars) by (rewrite <- app_assoc; reflexivity).
      cbn [mean_loop]. destruct (assoc acc v) as [y|] eqn:Ev.
      + apply (IH H'); [|intros v' Hv'; apply in_or_app; left; apply K, Hv'].
        destruct G as (G1 & G2). split; [|exact G2]. intros v' Hv'. apply in_app_or in Hv'. destruct Hv' as [Hv'|[<- |[]]]; [apply G1, Hv'|].
        apply G1, K. rewrite Ev. discriminate.
      + cbn [f_means no_fixed assoc]. destruct (one_mean v) as (m & E & Hm); [intros l Hl; apply H; [left; reflexivity|exact Hl]|].
        rewrite E. apply (IH H').
        * destruct G as (G1 & fd & G2). split.
          -- intros v' Hv'. rewrite assoc_app_new by exact Ev. apply in_app_or in Hv'. destruct Hv' as [Hv'|[<- |[]]].
             ++ destruct (G1 v' Hv') as (m' & A & B). exists m'. rewrite A. auto.
             ++ exists m. rewrite Ev, String.eqb_refl. auto.
          -- exists (fd ++ [(v, m)]). apply float_map_snoc, G2.
        * intros v'. rewrite assoc_app_new by exact Ev. intros Q. apply in_or_app.
          destruct (assoc acc v') as [y'|] eqn:E'; [left; apply K; rewrite E'; discriminate|].
          destruct (String.eqb_spec v v') as [-> |D]; [right; left; reflexivity|congruence].
  Qed.

  Lemma mean_ok vars : (forall v l, In v vars -> In l (b_hits b) -> float64 w v l /\ sane_size (num64 w v l)) ->
    exists d, mean extra no_fixed w b vars = inr d /\ good_dict vars d /\ (forall v, assoc d v <> None -> In v vars).
  Proof.
    intros H. apply (mean_loop_ok vars H [] []).
    - split; [intros v []|exists []; reflexivity].
    - intros v Q. elim Q. reflexivity.
  Qed.
End Statistics.
