(** Properties C57, C59, C62-C64: emittance, amplitude, Twiss parameters, stored covariances,
    linear maps of bunches and shells of hits. *)
From Coq Require Import Reals ZArith List Bool String Permutation Lia Lra.
From Verif Require Import Num WeightModel WeightProofs HitcoreModel HitcoreSpec HitcoreProofs
  PyLibModel PyLibProofs BunchModel BunchSpec BunchProofs HitPyModel HitPySpec HitPyProofs
  MomentModel BunchNumModel MomentSpec MomentProofs StatProofs CommonModel CommonSpec
  CommonProofs GridProofs CommonProps MomentProps EllipseModel EllipseSpec DetProofs EllipseProofs TwissProofs.
Import ListNotations.
Open Scope string_scope.
Open Scope list_scope.
Open Scope R_scope.

(** Four hits of mass 100 at (x, px) = (2, 0), (-2, 0), (0, 30), (0, -30). *)
Definition ex_four : list (WOp RNum) :=
  [ WNew; WNew; WNew; WNew;
    WSet 0 "x" (@PFloat RNum 2); WSet 1 "x" (@PFloat RNum (-2));
    WSet 2 "px" (@PFloat RNum 30); WSet 3 "px" (@PFloat RNum (-30));
    WSet 0 "mass" (@PFloat RNum 100); WSet 1 "mass" (@PFloat RNum 100);
    WSet 2 "mass" (@PFloat RNum 100); WSet 3 "mass" (@PFloat RNum 100) ].
Definition ex_bunch4 : Bunch := append (append (append (append bunch_new 0) 1) 2) 3.

Lemma ex_four_w l : In l (b_hits ex_bunch4) -> wt (wrun ex_four) l = 1.
Proof.
  intros [<-|[<-|[<-|[<-|[]]]]]; unfold wt.
  - replace (hit_get (wrun ex_four) 0 "weight") with (Some (@PFloat RNum (1 * 1))) by reflexivity. simpl. lra.
  - replace (hit_get (wrun ex_four) 1 "weight") with (Some (@PFloat RNum (1 * 1))) by reflexivity. simpl. lra.
  - replace (hit_get (wrun ex_four) 2 "weight") with (Some (@PFloat RNum (1 * 1))) by reflexivity. simpl. lra.
  - replace (hit_get (wrun ex_four) 3 "weight") with (Some (@PFloat RNum (1 * 1))) by reflexivity. simpl. lra.
Qed.

Lemma ex_four_average f : average (wrun ex_four) (b_hits ex_bunch4) f = (f 0%nat + f 1%nat + f 2%nat + f 3%nat) / 4.
Proof.
  unfold average, total_weight. rewrite (rsum_ext (wt (wrun ex_four)) (fun _ => 1)) by apply ex_four_w.
  rewrite (rsum_ext (fun l => wt (wrun ex_four) l * f l) f) by (intros; rewrite ex_four_w by auto; ring).
  cbn [rsum ex_bunch4 append b_hits bunch_new app].
  unfold Rdiv. f_equal; [ring|f_equal; ring].
Qed.

Lemma ex_four_total : total_weight (wrun ex_four) (b_hits ex_bunch4) = 4.
Proof.
  unfold total_weight. rewrite (rsum_ext (wt (wrun ex_four)) (fun _ => 1)) by apply ex_four_w.
  cbn [rsum ex_bunch4 append b_hits bunch_new app]. ring.
Qed.

Lemma ex_four_hits : forall l, In l (b_hits ex_bunch4) -> is_hit (wrun ex_four) l.
Proof. intros l [<-|[<-|[<-|[<-|[]]]]]; discriminate. Qed.

Lemma ex_four_usable : usable (wrun ex_four) ex_bunch4.
Proof.
  split; [reflexivity|]. split; [reflexivity|]. split; [exact ex_four_hits|].
  rewrite ex_four_total, Rabs_right; lra.
Qed.

Lemma ex_four_nonneg : nonneg_weights (wrun ex_four) (b_hits ex_bunch4).
Proof. intros l Hl. rewrite ex_four_w by auto. lra. Qed.

Lemma ex_four_mass : bunch_mass (wrun ex_four) ex_bunch4 = 100.
Proof.
  unfold bunch_mass, stored_val. cbn [hd ex_bunch4 append b_hits bunch_new app].
  replace (hit_get (wrun ex_four) 0 "mass") with (Some (@PFloat RNum 100)) by reflexivity. reflexivity.
Qed.

(** p = 200 for every hit, whatever the other coordinates. *)
Definition ex_val (v : string) (l : nat) : R :=
  if String.eqb v "p" then 200 else stored_val (wrun ex_four) v l.
Definition ex_extra : RWorld -> list nat -> string -> nat -> option RVal := fun _ _ _ _ => Some (@PFloat RNum 200).

Lemma ex_four_readings : readings ex_extra (wrun ex_four) (b_hits ex_bunch4) ["x"; "px"; "p"] ex_val.
Proof.
  intros v l Hv Hl. destruct Hv as [<-|[<-|[<-|[]]]].
  - destruct (stored_readings ex_extra (wrun ex_four) (b_hits ex_bunch4) ["x"] ex_four_hits) with (v := "x") (l := l)
      as (x & X1 & X2 & X3); simpl; auto.
    { intros v [<-|[]]. vm_compute; tauto. } exists x. auto.
  - destruct (stored_readings ex_extra (wrun ex_four) (b_hits ex_bunch4) ["px"] ex_four_hits) with (v := "px") (l := l)
      as (x & X1 & X2 & X3); simpl; auto.
    { intros v [<-|[]]. vm_compute; tauto. } exists x. auto.
  - exists (@PFloat RNum 200). split; [|split; [discriminate|reflexivity]].
    destruct Hl as [<-|[<-|[<-|[<-|[]]]]]; reflexivity.
Qed.

Lemma ex_four_cov u v : In u ["x"; "px"] -> In v ["x"; "px"] ->
  covariance (wrun ex_four) (b_hits ex_bunch4) ex_val u v =
  if String.eqb u v then (if String.eqb u "x" then 2 else 450) else 0.
Proof.
  intros Hu Hv.
  assert (X : forall l, In l [0; 1; 2; 3]%nat -> ex_val "x" l = nth l [2; -2; 0; 0] 0).
  { intros l [<-|[<-|[<-|[<-|[]]]]]; unfold ex_val, stored_val; cbn [String.eqb Ascii.eqb Bool.eqb nth].
    - replace (hit_get (wrun ex_four) 0 "x") with (Some (@PFloat RNum 2)) by reflexivity. reflexivity.
    - replace (hit_get (wrun ex_four) 1 "x") with (Some (@PFloat RNum (-2))) by reflexivity. reflexivity.
    - replace (hit_get (wrun ex_four) 2 "x") with (Some (@PFloat RNum 0)) by reflexivity. reflexivity.
    - replace (hit_get (wrun ex_four) 3 "x") with (Some (@PFloat RNum 0)) by reflexivity. reflexivity. }
  assert (P : forall l, In l [0; 1; 2; 3]%nat -> ex_val "px" l = nth l [0; 0; 30; -30] 0).
  { intros l [<-|[<-|[<-|[<-|[]]]]]; unfold ex_val, stored_val; cbn [String.eqb Ascii.eqb Bool.eqb nth].
    - replace (hit_get (wrun ex_four) 0 "px") with (Some (@PFloat RNum 0)) by reflexivity. reflexivity.
    - replace (hit_get (wrun ex_four) 1 "px") with (Some (@PFloat RNum 0)) by reflexivity. reflexivity.
    - replace (hit_get (wrun ex_four) 2 "px") with (Some (@PFloat RNum 30)) by reflexivity. reflexivity.
    - replace (hit_get (wrun ex_four) 3 "px") with (Some (@PFloat RNum (-30))) by reflexivity. reflexivity. }
  unfold covariance, deviation. rewrite !ex_four_average.
  destruct Hu as [<-|[<-|[]]]; destruct Hv as [<-|[<-|[]]]; cbn [String.eqb Ascii.eqb Bool.eqb];
    rewrite ?X, ?P by (simpl; tauto); cbn [nth]; lra.
Qed.

(** ---- C59 --------------------------------------------------------------------------- *)

(** C59.  With weights that are not negative (and a positive mass, if the emittance is
    normalised) the emittance is a number: the n-th root of the determinant of the
    covariances, over the mass. *)
Theorem C59_emittance : forall extra flag (w : RWorld) b axes vars val,
  usable w b -> nonneg_weights w (b_hits b) -> axes <> [] ->
  covariance_list axes flag = Some vars -> readings extra w (b_hits b) vars val ->
  let m := if flag then 1 else bunch_mass w b in 0 < m ->
  exists e, get_emittance extra flag no_fixed w b axes None = inr (Some e) /\ 0 <= e /\
    (e * m) ^ List.length vars = det_n (List.length vars) (covariances w (b_hits b) val vars).
Proof.
  intros extra flag w b axes vars val U Hw Ha Hv Hr m Hm.
  destruct (emittance_spec extra w b val U flag axes vars Ha Hv Hr) as (c & _ & C2 & C3 & _ & ->).
  assert (Hn : (0 < List.length vars)%nat).
  { apply covariance_list_paired in Hv. apply paired_length in Hv. destruct axes; [congruence|]. simpl in Hv. lia. }
  rewrite (matrix_det _ c (covariances w (b_hits b) val vars) C2 C3).
  destruct (root_spec (det_n (List.length vars) (covariances w (b_hits b) val vars)) (List.length vars)) as (y & -> & Y1 & Y2); auto.
  { apply covariances_det_nonneg; auto. apply usable_nz; auto. }
  cbv zeta. unfold m in *. destruct flag.
  - exists y. rewrite Rmult_1_r. auto.
  - rewrite (mass_spec w b U). cbn [bindE]. destruct (Req_EM_T (bunch_mass w b) 0); [lra|].
    exists (y / bunch_mass w b). split; auto. split.
    + apply Rmult_le_pos; auto. left. apply Rinv_0_lt_compat; auto.
    + replace (y / bunch_mass w b * bunch_mass w b) with y by (field; auto). auto.
Qed.
Print Assumptions C59_emittance.

(** C59.  The average amplitude over the bunch is 2n times the emittance, in n dimensions.
    If the covariance matrix is positive definite no amplitude is negative. *)
Theorem C59_amplitude : forall extra flag (inv : Matrix -> option Matrix) (w : RWorld) b axes vars val
    (c ci : Matrix) (e : R),
  usable w b -> axes <> [] -> covariance_list axes flag = Some vars ->
  readings extra w (b_hits b) vars val ->
  covariance_matrix extra no_fixed w b vars [] = inr c -> inv c = Some ci ->
  inverse_of (List.length vars) c ci ->
  get_emittance extra flag no_fixed w b axes None = inr (Some e) ->
  exists amplitude,
    (forall l, In l (b_hits b) ->
       get_amplitude extra flag inv no_fixed w b l axes None [] None = inr (Some (amplitude l))) /\
    average w (b_hits b) amplitude = 2 * INR (List.length axes) * e /\
    (positive_definite (List.length vars) c -> 0 <= e -> forall l, In l (b_hits b) -> 0 <= amplitude l).
Proof.
  intros extra flag inv w b axes vars val c ci e U Ha Hv Hr Hc Hi Ho He.
  set (n := List.length vars) in *.
  destruct (emittance_spec extra w b val U flag axes vars Ha Hv Hr) as (c' & C1 & C2 & C3 & C4 & _).
  assert (c' = c) by congruence. subst c'. fold n in C2, C3.
  destruct U as (U1 & U2 & U3).
  destruct (mean_spec extra w b vars val U1 U2 U3 Hr) as (d & D1 & D2 & _).
  assert (U : usable w b) by (repeat split; auto; apply U3).
  set (vect := fun l => map (fun v => deviation w (b_hits b) val v l) vars).
  assert (HV : forall l, In l (b_hits b) -> hit_vector extra w b l vars d = inr (vect l)).
  { intros l Il. unfold vect. clear - D2 Hr Il.
    assert (S : forall v, In v vars -> In v vars) by auto. revert S. generalize vars at 1 3 4 as vs.
    induction vs as [|v vs IH]; intros S; cbn [hit_vector map]; auto.
    destruct (Hr v l (S v (or_introl eq_refl)) Il) as (x & -> & X2 & X3).
    rewrite (D2 v (S v (or_introl eq_refl))).
    assert (A : as_num x = Some (val v l : Num.num RNum)).
    { destruct x; [| |congruence]; simpl in *; rewrite <- X3; reflexivity. }
    rewrite A. cbn [as_num]. rewrite IH by (intros; apply S; right; auto). reflexivity. }
  exists (fun l => qform ci (vect l) * e).
  assert (LV : forall l, List.length (vect l) = n) by (intros; unfold vect; rewrite map_length; auto).
  assert (NV : forall l i, (i < n)%nat -> nth i (vect l) 0 = deviation w (b_hits b) val (nth i vars "") l).
  { intros l i Hi'. unfold vect. rewrite (nth_indep _ 0 ((fun v => deviation w (b_hits b) val v l) "")) by (rewrite map_length; auto).
    apply (map_nth (fun v => deviation w (b_hits b) val v l)). }
  pose proof Ho as [Sci (one & Pr & Id)].
  assert (Q : forall l, qform ci (vect l) = sum_n n (fun i => sum_n n (fun j =>
     ent ci i j * (deviation w (b_hits b) val (nth i vars "") l * deviation w (b_hits b) val (nth j vars "") l)))).
  { intros l. rewrite (qform_form ci (vect l) n) by auto. unfold form. rewrite LV.
    apply sum_n_ext. intros i Hi'. apply sum_n_ext. intros j Hj. rewrite !NV by auto. ring. }
  split; [|split].
  - intros l Il. unfold get_amplitude, choose. rewrite Hv. unfold mean_picker. cbn [f_means no_fixed bindE].
    rewrite D1. cbn [bindE]. rewrite (HV l Il). cbn [bindE]. unfold pick_cov, cov_picker. cbn [f_covs no_fixed bindE].
    rewrite C1. cbn [bindE]. rewrite Hi. rewrite LV, (proj1 Sci), Nat.eqb_refl.
    assert (E : get_emittance extra flag no_fixed w b axes (@Some (list (list R)) c) = inr (Some e)).
    { rewrite <- He. symmetry. exact C4. }
    rewrite E. reflexivity.
  - rewrite (average_ext w w (b_hits b) _ (fun l => e * qform ci (vect l))); auto; [|intros; ring].
    rewrite average_scale.
    replace (average w (b_hits b) (fun l => qform ci (vect l))) with (INR n).
    { apply covariance_list_paired, paired_length in Hv. fold n in Hv. rewrite Hv, mult_INR. simpl. ring. }
    rewrite (average_ext w w (b_hits b) _ (fun l => sum_n n (fun i => sum_n n (fun j =>
     ent ci i j * (deviation w (b_hits b) val (nth i vars "") l * deviation w (b_hits b) val (nth j vars "") l))))); auto.
    rewrite average_sum_n.
    rewrite (sum_n_ext n _ (fun i => sum_n n (fun j => ent c j i * ent ci i j))).
    + rewrite sum_n_swap. rewrite (sum_n_ext n _ (fun _ => 1)).
      * clear. induction n as [|n IH]; [reflexivity|]. rewrite S_INR, IH. reflexivity.
      * intros j Hj. rewrite <- (Pr j j Hj Hj), Id by auto.
        rewrite Nat.eqb_refl. reflexivity.
    + intros i Hi'. rewrite average_sum_n. apply sum_n_ext. intros j Hj. rewrite average_scale.
      fold (covariance w (b_hits b) val (nth i vars "") (nth j vars "")).
      rewrite covariance_sym, <- C3 by auto. ring.
  - intros PD Pe l Il. apply Rmult_le_pos; auto.
    destruct (inverse_positive _ _ _ PD Ho) as [S P]. rewrite (qform_form ci (vect l) n) by auto.
    destruct (Forall_Exists_dec (fun x => x = 0) (fun x => Req_EM_T x 0) (vect l)) as [Z|Z].
    + right. unfold form. rewrite (sum_n_ext _ _ (fun _ => 0 * 0)); [rewrite sum_n_scale; ring|].
      intros i Hi'. rewrite (sum_n_ext _ _ (fun _ => 0 * 0)); [rewrite sum_n_scale; ring|].
      intros j Hj. rewrite Forall_forall in Z. rewrite (Z (nth i (vect l) 0)) by (apply nth_In; auto). ring.
    + left. apply P; auto. apply Exists_exists in Z. destruct Z as (x & Ix & Nx).
      destruct (In_nth _ _ 0 Ix) as (i & _ & <-). exists i. auto.
Qed.
Print Assumptions C59_amplitude.

Example C59_example :
  usable (wrun ex_four) ex_bunch4 /\ nonneg_weights (wrun ex_four) (b_hits ex_bunch4) /\
  readings ex_extra (wrun ex_four) (b_hits ex_bunch4) ["x"; "px"] ex_val /\
  covariance_list ["x"] false = Some ["x"; "px"] /\
  covariance_matrix ex_extra no_fixed (wrun ex_four) ex_bunch4 ["x"; "px"] [] = inr [[2; 0]; [0; 450]] /\
  inverse_of 2 [[2; 0]; [0; 450]] [[/ 2; 0]; [0; / 450]] /\
  get_emittance ex_extra false no_fixed (wrun ex_four) ex_bunch4 ["x"] None = inr (Some (3 / 10)) /\
  positive_definite 2 [[2; 0]; [0; 450]].
Proof.
  assert (R2 : readings ex_extra (wrun ex_four) (b_hits ex_bunch4) ["x"; "px"] ex_val).
  { eapply readings_sub; [apply ex_four_readings|]. simpl; tauto. }
  assert (CM : covariance_matrix ex_extra no_fixed (wrun ex_four) ex_bunch4 ["x"; "px"] [] = inr [[2; 0]; [0; 450]]).
  { destruct (cov_matrix_spec ex_extra (wrun ex_four) ex_bunch4 ex_val ex_four_usable ["x"; "px"] R2) as (c & C1 & C2 & C3).
    rewrite C1. f_equal. apply (square_ext 2); auto; [split; auto; intros r [<-|[<-|[]]]; reflexivity|].
    intros i j Hi Hj. rewrite C3 by auto.
    destruct i as [|[|i]]; [| |lia]; (destruct j as [|[|j]]; [| |lia]); cbn [nth];
      rewrite ex_four_cov by (simpl; tauto); reflexivity. }
  split; [exact ex_four_usable|]. split; [exact ex_four_nonneg|]. split; auto. split; [reflexivity|]. split; auto.
  split.
  { split; [split; auto; intros r [<-|[<-|[]]]; reflexivity|]. exists [[1; 0]; [0; 1]]. split.
    - intros i j Hi Hj. destruct i as [|[|i]]; [| |lia]; (destruct j as [|[|j]]; [| |lia]); unfold ent; simpl; lra.
    - intros i j Hi Hj. destruct i as [|[|i]]; [| |lia]; (destruct j as [|[|j]]; [| |lia]); reflexivity. }
  split.
  - destruct (C59_emittance ex_extra false (wrun ex_four) ex_bunch4 ["x"] ["x"; "px"] ex_val) as (e & E1 & E2 & E3);
      auto using ex_four_usable, ex_four_nonneg; try discriminate; try reflexivity.
    { rewrite ex_four_mass. lra. }
    rewrite E1. do 2 f_equal. cbv iota in E3. rewrite ex_four_mass in E3.
    apply (pow_inj _ _ 2); auto; try lra.
    assert (D : det_n 2 (covariances (wrun ex_four) (b_hits ex_bunch4) ex_val ["x"; "px"]) = 900).
    { cbn [det_n sum_n Nat.ltb Nat.leb pow]. unfold covariances. cbn [nth].
      rewrite !ex_four_cov by (simpl; tauto). cbn [String.eqb Ascii.eqb Bool.eqb]. lra. }
    cbn [List.length] in E3. rewrite D in E3. simpl in *. lra.
  - apply pd2; lra.
Qed.

Lemma mat2_eq (a b c d a' b' c' d' : R) : a = a' -> b = b' -> c = c' -> d = d' ->
  @inr MErr Matrix [[a; b]; [c; d]] = inr [[a'; b']; [c'; d']].
Proof. intros; subst; reflexivity. Qed.

(** ---- C63 --------------------------------------------------------------------------- *)

(** C63.  One axis, variables as chosen by the class variable: the measured Twiss parameters
    fulfil beta gamma = 1 + alpha^2, and the ellipse built from them is the measured
    covariance matrix. *)
Theorem C63_twiss : forall extra flag (w : RWorld) b a m val,
  usable w b -> covariance_list [a] flag = Some [a; m] ->
  readings extra w (b_hits b) (if flag then [a; m] else [a; m; "p"]) val ->
  let mass := bunch_mass w b in
  let p := average w (b_hits b) (val "p") in
  let V := covariance w (b_hits b) val in
  (flag = false -> 0 < mass /\ 0 < p) -> 0 < V a a -> 0 < V a a * V m m - V a m * V a m ->
  exists e beta gamma alpha,
    get_emittance extra flag no_fixed w b [a] None = inr (Some e) /\
    get_beta extra flag no_fixed w b [a] None = inr (Some beta) /\
    get_gamma extra flag no_fixed w b [a] None = inr (Some gamma) /\
    get_alpha extra flag no_fixed w b [a] None = inr (Some alpha) /\
    beta * gamma - alpha * alpha = 1 /\ 0 < beta /\ 0 < e /\
    build_ellipse_2d beta alpha e p mass flag = inr [[V a a; V a m]; [V m a; V m m]].
Proof.
  intros extra flag w b a m val U Hl Hr mass p V Hpm Ha Hd.
  assert (R2 : readings extra w (b_hits b) [a; m] val).
  { destruct flag; auto. eapply readings_sub; eauto. simpl; tauto. }
  assert (Mv : momentum_variable a flag = Some m).
  { cbn [covariance_list] in Hl. destruct (momentum_variable a flag); [|discriminate]. injection Hl as ->. auto. }
  assert (Va : variance extra no_fixed w b a = inr (V a a)).
  { apply variance_spec; auto. eapply readings_sub; eauto. simpl; tauto. }
  assert (Vm : variance extra no_fixed w b m = inr (V m m)).
  { apply variance_spec; auto. eapply readings_sub; eauto. simpl; tauto. }
  assert (Vam : cov_about_mean extra no_fixed w b a m = inr (V a m)) by (apply about_mean_spec; auto).
  set (D := V a a * V m m - V a m * V a m) in *.
  assert (Sd : sqrt D * sqrt D = D) by (apply sqrt_sqrt; lra).
  assert (Ps : 0 < sqrt D) by (apply sqrt_lt_R0; auto).
  assert (E : exists e, get_emittance extra flag no_fixed w b [a] None = inr (Some e) /\
     e = if flag then sqrt D else sqrt D / mass).
  { destruct (emittance_spec extra w b val U flag [a] [a; m]) as (c & _ & C2 & C3 & _ & ->); auto; try discriminate.
    rewrite (matrix_det _ c (covariances w (b_hits b) val [a; m]) C2 C3).
    assert (DD : det_n 2 (covariances w (b_hits b) val [a; m]) = D).
    { cbn [det_n sum_n Nat.ltb Nat.leb pow]. unfold covariances. cbn [nth]. unfold D, V.
      rewrite (covariance_sym w (b_hits b) val m a). ring. }
    cbn [List.length]. rewrite DD, root_sqrt by lra. cbv zeta. destruct flag; [eauto|].
    rewrite (mass_spec w b U). cbn [bindE]. fold mass. destruct Hpm as [Hm _]; auto.
    destruct (Req_EM_T mass 0); [lra|]. eauto. }
  destruct E as (e & E & He). unfold get_beta, get_gamma, get_alpha, choose. rewrite E. cbn [bindE sum_axes].
  rewrite Va, Mv, Vm, Vam. cbn [bindE sum_axes List.length over_emittance].
  assert (I1 : INR 1 = 1) by reflexivity.
  unfold divE. rewrite I1. rewrite !Rplus_0_l.
  destruct flag.
  - subst e. cbn [over_emittance]. rewrite Rmult_1_r. destruct (Req_EM_T (sqrt D) 0); [lra|]. cbn [bindE].
    exists (sqrt D), (V a a / sqrt D), (V m m / sqrt D), (- (V a m / sqrt D)). repeat (split; [reflexivity|]).
    assert (Pb : 0 < V a a / sqrt D) by (apply Rdiv_lt_0_compat; auto).
    split; [|split; [auto|split; [auto|]]].
    + replace (V a a / sqrt D * (V m m / sqrt D) - - (V a m / sqrt D) * - (V a m / sqrt D)) with (D / (sqrt D * sqrt D))
        by (unfold D at 1; field; lra). rewrite Sd. field. lra.
    + unfold build_ellipse_2d, divE. destruct (Req_EM_T (V a a / sqrt D) 0); [lra|]. cbn [bindE].
      destruct (Rle_dec (V a a / sqrt D) 0); [lra|]. destruct (Rle_dec (sqrt D) 0); [lra|].
      unfold V. rewrite (covariance_sym w (b_hits b) val m a). fold V. apply mat2_eq; [field; lra|field; lra|field; lra|].
        replace ((1 + - (V a m / sqrt D) * - (V a m / sqrt D)) / (V a a / sqrt D) * sqrt D)
          with ((sqrt D * sqrt D + V a m * V a m) / V a a) by (field; lra).
        rewrite Sd. unfold D. field. lra.
  - destruct Hpm as [Hm Hp]; auto.
    assert (Mp : mean_of extra no_fixed w b "p" = inr p).
    { apply mean_of_spec; auto. eapply readings_sub; [exact Hr|]. simpl; tauto. }
    rewrite Mp, (mass_spec w b U). fold mass. cbn [bindE over_emittance]. subst e. rewrite !Rmult_1_r.
    replace (sqrt D / mass * mass) with (sqrt D) by (field; lra).
    assert (Pe : 0 < sqrt D / mass) by (apply Rdiv_lt_0_compat; auto).
    assert (Ppm : 0 < p * mass) by (apply Rmult_lt_0_compat; auto).
    destruct (Req_EM_T (sqrt D) 0); [lra|]. destruct (Req_EM_T (p * mass) 0); [lra|]. cbn [bindE].
    destruct (Req_EM_T (sqrt D / mass) 0); [lra|]. cbn [bindE].
    exists (sqrt D / mass), (V a a * (p / sqrt D)), (V m m / (p * mass) / (sqrt D / mass)), (- (V a m / sqrt D)).
    split; auto. repeat (split; [reflexivity|]).
    assert (Pb : 0 < V a a * (p / sqrt D)).
    { apply Rmult_lt_0_compat; auto. apply Rdiv_lt_0_compat; auto. }
    split; [|split; [auto|split; [auto|]]].
    + replace (V a a * (p / sqrt D) * (V m m / (p * mass) / (sqrt D / mass)) - - (V a m / sqrt D) * - (V a m / sqrt D))
        with (D / (sqrt D * sqrt D)) by (unfold D at 1; field; lra). rewrite Sd. field. lra.
    + unfold build_ellipse_2d, divE. destruct (Req_EM_T (V a a * (p / sqrt D)) 0); [lra|]. cbn [bindE].
      destruct (Rle_dec (V a a * (p / sqrt D)) 0); [lra|]. destruct (Rle_dec (sqrt D / mass) 0); [lra|].
      destruct (Req_EM_T p 0); [lra|]. cbn [bindE].
      unfold V. rewrite (covariance_sym w (b_hits b) val m a). fold V. apply mat2_eq; [field; lra|field; lra|field; lra|].
        replace ((1 + - (V a m / sqrt D) * - (V a m / sqrt D)) / (V a a * (p / sqrt D)) * (sqrt D / mass) * mass * p)
          with ((sqrt D * sqrt D + V a m * V a m) / V a a) by (field; lra).
        rewrite Sd. unfold D. field. lra.
Qed.
Print Assumptions C63_twiss.

(** C63.  Not so with geometric=True while the class variable is False: the emittance is still
    the normalised one, so the relation is off by mass^2 times a ratio of areas. *)
Theorem C63_geometric_argument_refuted : forall extra (w : RWorld) b a m s val,
  usable w b -> covariance_list [a] false = Some [a; m] -> covariance_list [a] true = Some [a; s] ->
  readings extra w (b_hits b) [a; m; s] val ->
  let mass := bunch_mass w b in
  let V := covariance w (b_hits b) val in
  0 < mass -> 0 < V a a * V m m - V a m * V a m ->
  exists beta gamma alpha,
    get_beta extra false no_fixed w b [a] (Some true) = inr (Some beta) /\
    get_gamma extra false no_fixed w b [a] (Some true) = inr (Some gamma) /\
    get_alpha extra false no_fixed w b [a] (Some true) = inr (Some alpha) /\
    beta * gamma - alpha * alpha =
      mass * mass * (V a a * V s s - V a s * V a s) / (V a a * V m m - V a m * V a m).
Proof.
  intros extra w b a m s val U Hl Hl' Hr mass V Hm Hd.
  assert (Ms : momentum_variable a true = Some s).
  { cbn [covariance_list] in Hl'. destruct (momentum_variable a true); [|discriminate]. injection Hl' as ->. auto. }
  assert (Va : variance extra no_fixed w b a = inr (V a a)).
  { apply variance_spec; auto. eapply readings_sub; eauto. simpl; tauto. }
  assert (Vs : variance extra no_fixed w b s = inr (V s s)).
  { apply variance_spec; auto. eapply readings_sub; eauto. simpl; tauto. }
  assert (Vas : cov_about_mean extra no_fixed w b a s = inr (V a s)).
  { apply about_mean_spec; auto. eapply readings_sub; eauto. simpl; tauto. }
  set (D := V a a * V m m - V a m * V a m) in *.
  assert (Sd : sqrt D * sqrt D = D) by (apply sqrt_sqrt; lra).
  assert (Ps : 0 < sqrt D) by (apply sqrt_lt_R0; auto).
  assert (Pe : 0 < sqrt D / mass) by (apply Rdiv_lt_0_compat; auto).
  assert (E : get_emittance extra false no_fixed w b [a] None = inr (Some (sqrt D / mass))).
  { destruct (emittance_spec extra w b val U false [a] [a; m]) as (c & _ & C2 & C3 & _ & ->); auto; try discriminate.
    { eapply readings_sub; eauto. simpl; tauto. }
    rewrite (matrix_det _ c (covariances w (b_hits b) val [a; m]) C2 C3).
    assert (DD : det_n 2 (covariances w (b_hits b) val [a; m]) = D).
    { cbn [det_n sum_n Nat.ltb Nat.leb pow]. unfold covariances. cbn [nth]. unfold D, V.
      rewrite (covariance_sym w (b_hits b) val m a). ring. }
    cbn [List.length]. rewrite DD, root_sqrt by lra. cbv zeta iota.
    rewrite (mass_spec w b U). cbn [bindE]. fold mass. destruct (Req_EM_T mass 0); [lra|]. reflexivity. }
  unfold get_beta, get_gamma, get_alpha, choose. rewrite E. cbn [bindE sum_axes].
  rewrite Va, Ms, Vs, Vas. cbn [bindE sum_axes List.length over_emittance].
  assert (I1 : INR 1 = 1) by reflexivity.
  unfold divE. rewrite I1. rewrite !Rplus_0_l, Rmult_1_r. destruct (Req_EM_T (sqrt D / mass) 0); [lra|]. cbn [bindE].
  do 3 eexists. repeat (split; [reflexivity|]).
  replace (V a a / (sqrt D / mass) * (V s s / (sqrt D / mass)) - - (V a s / (sqrt D / mass)) * - (V a s / (sqrt D / mass)))
    with (mass * mass * (V a a * V s s - V a s * V a s) / (sqrt D * sqrt D)) by (field; lra).
  rewrite Sd. reflexivity.
Qed.
Print Assumptions C63_geometric_argument_refuted.

Example C63_example :
  usable (wrun ex_four) ex_bunch4 /\ covariance_list ["x"] false = Some ["x"; "px"] /\
  readings ex_extra (wrun ex_four) (b_hits ex_bunch4) ["x"; "px"; "p"] ex_val /\
  0 < bunch_mass (wrun ex_four) ex_bunch4 /\ 0 < average (wrun ex_four) (b_hits ex_bunch4) (ex_val "p") /\
  let V := covariance (wrun ex_four) (b_hits ex_bunch4) ex_val in
  V "x" "x" = 2 /\ V "px" "px" = 450 /\ V "x" "px" = 0 /\
  (* beta = 2/3 mm/MeV * p = 40/3, gamma = 3/40, alpha = 0 *)
  get_beta ex_extra false no_fixed (wrun ex_four) ex_bunch4 ["x"] None = inr (Some (40 / 3)).
Proof.
  assert (M : average (wrun ex_four) (b_hits ex_bunch4) (ex_val "p") = 200).
  { rewrite ex_four_average. unfold ex_val. cbn [String.eqb Ascii.eqb Bool.eqb]. lra. }
  assert (X : covariance (wrun ex_four) (b_hits ex_bunch4) ex_val "x" "x" = 2) by (rewrite ex_four_cov; simpl; tauto).
  assert (P : covariance (wrun ex_four) (b_hits ex_bunch4) ex_val "px" "px" = 450) by (rewrite ex_four_cov; simpl; tauto).
  assert (XP : covariance (wrun ex_four) (b_hits ex_bunch4) ex_val "x" "px" = 0) by (rewrite ex_four_cov; simpl; tauto).
  split; [exact ex_four_usable|]. split; [reflexivity|]. split; [exact ex_four_readings|].
  split; [rewrite ex_four_mass; lra|]. split; [rewrite M; lra|]. cbv zeta.
  split; [exact X|]. split; [exact P|]. split; [exact XP|].
  destruct (C63_twiss ex_extra false (wrun ex_four) ex_bunch4 "x" "px" ex_val) as (e & beta & gamma & alpha & _ & B & G & A & T & Pb & Pe & L);
    auto using ex_four_usable, ex_four_readings.
  - intros _. rewrite ex_four_mass, M. lra.
  - rewrite X. lra.
  - rewrite X, P, XP. lra.
  - rewrite B. do 2 f_equal. rewrite M, ex_four_mass, X, XP, P, (covariance_sym _ _ _ "px" "x"), XP in L.
    unfold build_ellipse_2d, divE in L.
    destruct (Req_EM_T beta 0); [discriminate|]. cbn [bindE] in L.
    destruct (Rle_dec beta 0); [lra|]. destruct (Rle_dec e 0); [lra|].
    destruct (Req_EM_T 200 0); [lra|]. cbn [bindE] in L. injection L as L1 L2 L3 L4.
    assert (Za : alpha = 0) by nra. subst alpha.
    assert (B2 : beta * e = 4) by lra.
    assert (B4 : e = beta * (225 / 10000)).
    { apply (Rmult_eq_reg_r (/ beta)); [|apply Rinv_neq_0_compat; auto].
      replace (beta * (225 / 10000) * / beta) with (225 / 10000) by (field; auto). nra. }
    subst e. assert (beta * beta = 1600 / 9) by lra. nra.
Qed.

(** ---- C64 --------------------------------------------------------------------------- *)

Lemma axes_coordinates axes vars : covariance_list axes false = Some vars -> ~ In "ct" axes ->
  forall k, In k vars -> coordinate k.
Proof.
  intros H. apply covariance_list_paired in H. induction H as [|a m axes l I P IH]; intros N k; [intros []|].
  intros [<-|[<-|Ik]].
  - cbn in I. destruct I as [I|[I|[I|[I|[I|[]]]]]]; injection I as <- <-; try (split; [vm_compute; tauto|discriminate]).
    exfalso. apply N. simpl; auto.
  - cbn in I. destruct I as [I|[I|[I|[I|[I|[]]]]]]; injection I as <- <-; split; try (vm_compute; tauto); discriminate.
  - apply IH; auto. intros C. apply N. simpl; auto.
Qed.

(** C64.  A linear map of some coordinates, about any origin and with any translation:
    the means are mapped, the covariances become M V M^T. *)
Theorem C64_covariance : forall (w : RWorld) b ks m t o,
  usable w b -> NoDup (b_hits b) -> NoDup ks -> (forall k, In k ks -> coordinate k) ->
  square (List.length ks) m ->
  let n := List.length ks in
  exists w', bunch_abelian w b ks m t o "" = (w', None) /\ usable w' b /\
    (forall i, (i < n)%nat -> average w' (b_hits b) (stored_val w' (nth i ks "")) =
       sum_n n (fun j => ent m i j * (average w (b_hits b) (stored_val w (nth j ks "")) - entry o (nth j ks "")))
       + entry t (nth i ks "") + entry o (nth i ks "")) /\
    (forall i j, (i < n)%nat -> (j < n)%nat ->
       covariance w' (b_hits b) (stored_val w') (nth i ks "") (nth j ks "") =
       sum_n n (fun a => sum_n n (fun c => ent m i a *
         covariance w (b_hits b) (stored_val w) (nth a ks "") (nth c ks "") * ent m j c))).
Proof.
  intros w b ks m t o U Hn Hk Hc Hm n. pose proof U as (U1 & U2 & U3).
  destruct (bunch_abelian_spec w b ks m t o Hn (proj1 U3) Hk Hc Hm) as (w' & W1 & W2 & W3 & W4 & W5 & W6 & W7).
  exists w'. split; auto.
  assert (U' : usable w' b).
  { split; [congruence|]. split; auto. split; auto. rewrite (total_weight_ext w w' (b_hits b) W4). apply U3. }
  split; auto.
  assert (V : forall i l, (i < n)%nat -> In l (b_hits b) -> stored_val w' (nth i ks "") l =
     sum_n n (fun j => ent m i j * stored_val w (nth j ks "") l) +
     (entry t (nth i ks "") + entry o (nth i ks "") - sum_n n (fun j => ent m i j * entry o (nth j ks "")))).
  { intros i l Hi Hl. rewrite (W7 i (nth i ks "") l) by (auto; apply nth_error_nth'; auto). fold n.
    rewrite (sum_n_ext n _ (fun j => ent m i j * stored_val w (nth j ks "") l + (-1) * (ent m i j * entry o (nth j ks ""))))
      by (intros; ring).
    rewrite sum_n_plus, sum_n_scale. ring. }
  split.
  - intros i Hi. rewrite (average_ext w w' (b_hits b) _ _ W4 (fun l Hl => V i l Hi Hl)).
    rewrite average_plus, average_const, average_sum_n by (apply usable_nz; auto).
    rewrite (sum_n_ext n (fun j => ent m i j * (average w (b_hits b) (stored_val w (nth j ks "")) - entry o (nth j ks "")))
      (fun j => ent m i j * average w (b_hits b) (stored_val w (nth j ks "")) + (-1) * (ent m i j * entry o (nth j ks ""))))
      by (intros; ring).
    rewrite sum_n_plus, sum_n_scale.
    rewrite (sum_n_ext n (fun i0 => average w (b_hits b) (fun l => ent m i i0 * stored_val w (nth i0 ks "") l))
      (fun j => ent m i j * average w (b_hits b) (stored_val w (nth j ks "")))) by (intros; apply average_scale).
    ring.
  - apply (linear_covariance w w' (b_hits b) (stored_val w) (stored_val w') ks m
      (fun i => entry t (nth i ks "") + entry o (nth i ks "") - sum_n n (fun j => ent m i j * entry o (nth j ks "")))); auto.
    apply usable_nz; auto.
Qed.
Print Assumptions C64_covariance.

(** C64.  A linear map of the phase space of some axes with determinant 1 or -1, in
    particular every symplectic map, keeps their emittance; any linear map multiplies it by
    the n-th root of |det M|, n axes. *)
Theorem C64_emittance : forall extra (w : RWorld) b axes vars m t o,
  usable w b -> NoDup (b_hits b) -> axes <> [] -> ~ In "ct" axes ->
  covariance_list axes false = Some vars -> NoDup vars -> square (List.length vars) m ->
  exists w', bunch_abelian w b vars m t o "" = (w', None) /\
    (det m * det m = 1 ->
       get_emittance extra false no_fixed w' b axes None = get_emittance extra false no_fixed w b axes None) /\
    (forall e, 0 < bunch_mass w b ->
       get_emittance extra false no_fixed w b axes None = inr (Some e) ->
       exists e', get_emittance extra false no_fixed w' b axes None = inr (Some e') /\ 0 <= e' /\
         e' ^ List.length vars = det m * det m * e ^ List.length vars).
Proof.
  intros extra w b axes vars m t o U Hn Ha Nct Hv Hk Hm.
  pose proof (axes_coordinates axes vars Hv Nct) as Hc.
  destruct (C64_covariance w b vars m t o U Hn Hk Hc Hm) as (w' & W1 & U' & _ & W4).
  exists w'. split; auto.
  destruct (bunch_abelian_spec w b vars m t o Hn (proj1 (proj2 (proj2 U))) Hk Hc Hm) as (w2 & X1 & _ & _ & _ & _ & X6 & _).
  assert (w2 = w') by congruence. subst w2.
  assert (Hs : forall v, In v vars -> In v stored_floats) by (intros v H; apply Hc; auto).
  assert (R0 : readings extra w (b_hits b) vars (stored_val w)) by (apply stored_readings; auto; apply U).
  assert (R1 : readings extra w' (b_hits b) vars (stored_val w')) by (apply stored_readings; auto; apply U').
  assert (Nm : ~ In "mass" vars).
  { intros I. clear - Hv I. apply covariance_list_paired in Hv. induction Hv as [|a mo axes l I2 P IH]; [destruct I|].
    destruct I as [->|[->|I]]; auto; cbn in I2; intuition discriminate. }
  assert (M : bunch_mass w' b = bunch_mass w b).
  { unfold bunch_mass. apply X6; auto; [vm_compute; tauto|].
    destruct (usable_first w b U) as (l & r & -> & _). simpl; auto. }
  destruct (emittance_spec extra w b _ U false axes vars Ha Hv R0) as (c & _ & C2 & C3 & _ & E).
  destruct (emittance_spec extra w' b _ U' false axes vars Ha Hv R1) as (c' & _ & C2' & C3' & _ & E').
  rewrite (mass_spec w b U) in E. rewrite (mass_spec w' b U'), M in E'. cbv zeta iota in E, E'. cbn [bindE] in E, E'.
  set (n := List.length vars) in *.
  assert (D : det c' = det m * det m * det c).
  { rewrite (matrix_det n c' (fun i j => sum_n n (fun a => sum_n n (fun k => ent m i a * ent c a k * ent m j k)))); auto.
    - rewrite det_congruence. f_equal; [f_equal|]; symmetry; apply matrix_det; auto.
    - intros i j Hi Hj. rewrite C3', W4 by auto. apply sum_n_ext. intros a Hla. apply sum_n_ext. intros k Hlk.
      rewrite C3 by auto. reflexivity. }
  assert (Hpos : (0 < n)%nat).
  { apply covariance_list_paired, paired_length in Hv. destruct axes; [congruence|]. simpl in Hv. unfold n. lia. }
  split.
  - intros H1. rewrite E, E', D, H1, Rmult_1_l. reflexivity.
  - intros e Hmass He. rewrite E in He.
    destruct (Req_EM_T (bunch_mass w b) 0); [lra|].
    destruct (Rlt_dec (det c) 0) as [L|L].
    { unfold root in He. destruct (Rlt_dec (det c) 0); [discriminate|lra]. }
    destruct (root_spec (det c) n) as (y & Y0 & Y1 & Y2); [lra|auto|]. rewrite Y0 in He. injection He as <-.
    assert (0 <= det c').
    { rewrite D. apply Rmult_le_pos; [apply Rle_0_sqr|lra]. }
    destruct (root_spec (det c') n) as (y' & Y0' & Y1' & Y2'); auto. rewrite E', Y0'.
    exists (y' / bunch_mass w b). split; auto. split.
    + apply Rmult_le_pos; auto. left. apply Rinv_0_lt_compat; auto.
    + unfold Rdiv. rewrite !Rpow_mult_distr, Y2, Y2', D. ring.
Qed.
Print Assumptions C64_emittance.

(** C64.  The documentation gives the bunch mean as the default origin; the origin used is 0,
    so reflecting x without naming an origin moves the mean. *)
Theorem C64_default_origin_refuted : forall (w : RWorld) b, usable w b -> NoDup (b_hits b) ->
  average w (b_hits b) (stored_val w "x") <> 0 ->
  exists w', bunch_abelian w b ["x"] [[-1]] [] [] "" = (w', None) /\
    average w' (b_hits b) (stored_val w' "x") <> average w (b_hits b) (stored_val w "x").
Proof.
  intros w b U Hn Hx.
  destruct (C64_covariance w b ["x"] [[-1]] [] [] U Hn) as (w' & W1 & _ & W3 & _).
  - repeat constructor. intros [].
  - intros k [<-|[]]. split; [vm_compute; tauto|discriminate].
  - split; auto. intros r [<-|[]]; reflexivity.
  - exists w'. split; auto. specialize (W3 0%nat ltac:(simpl; lia)). cbn [nth List.length sum_n] in W3.
    rewrite W3. unfold ent. simpl. lra.
Qed.
Print Assumptions C64_default_origin_refuted.

(** A drift: x' = x + 3 px. *)
Example C64_example :
  usable (wrun ex_four) ex_bunch4 /\ NoDup (b_hits ex_bunch4) /\
  covariance_list ["x"] false = Some ["x"; "px"] /\ NoDup ["x"; "px"] /\
  square 2 [[1; 3]; [0; 1]] /\ det [[1; 3]; [0; 1]] * det [[1; 3]; [0; 1]] = 1 /\
  get_emittance ex_extra false no_fixed (wrun ex_four) ex_bunch4 ["x"] None = inr (Some (3 / 10)).
Proof.
  split; [exact ex_four_usable|]. split; [repeat constructor; simpl; intuition discriminate|].
  split; [reflexivity|]. split; [repeat constructor; simpl; intuition discriminate|].
  split; [split; auto; intros r [<-|[<-|[]]]; reflexivity|]. split; [rewrite det_2; lra|]. apply C59_example.
Qed.

(** ---- C57 --------------------------------------------------------------------------- *)

(** C57.  Hits on a shell: numbered from 0; around the default hit they are on the ellipse;
    they are on the mass shell; variables not listed have their defaults. *)
Theorem C57_hit_shell : forall (inv : Matrix -> option Matrix) (c : RCtx) n ellipse ci vars defaults,
  let d := List.length vars in
  List.length ellipse = d -> (1 <= d)%nat -> positive_definite d ellipse ->
  inv ellipse = Some ci -> inverse_of d ellipse ci ->
  (2 <= n)%nat -> (INR n - 1) * (INR n - 1) < 1000000000 -> (Z.of_nat (n ^ d) <= 2147483648)%Z ->
  stored_dict defaults -> NoDup vars -> (forall k, In k vars -> In k stored_floats) -> ~ In "energy" vars ->
  exists hits, new_hit_shell inv c n ellipse vars "energy" defaults = Some (inr (hits, c)) /\
    List.length hits = (if Nat.even n then n ^ d else n ^ d - 1)%nat /\
    forall i h, nth_error hits i = Some h ->
      h_int h Ievent = Z.of_nat i /\ on_shell h /\ 0 <= h_dbl h Venergy /\
      (forall v, v <> Venergy -> ~ In (fname v) vars -> h_dbl h v = dict_value defaults (fname v)) /\
      exists u, List.length u = d /\ form ci u = 1 /\
        forall j v, nth_error vars j = Some (fname v) -> h_dbl h v = dict_value defaults (fname v) + nth j u 0.
Proof.
  intros inv c n ell ci vars defaults d Le Hd PD Hi Ho Hn Hb Hz Hs ND S Ne.
  destruct (C35_count inv n ell ci (repeat 0 d) d (repeat_length _ _) Le Hd PD Hi Ho Hn Hb) as (pts & P1 & P2).
  destruct (C35_on_ellipse inv n ell ci (repeat 0 d) d (repeat_length _ _) Le PD Hi Ho Hn) as (pts' & Q1 & Q2).
  assert (pts' = pts).
  { rewrite P1 in Q1. injection Q1 as Q1. clear - Q1. revert pts' Q1.
    induction pts as [|p pts IH]; intros [|q pts'] E; try discriminate; auto.
    injection E as -> E. f_equal. auto. }
  subst pts'.
  assert (M : make_shell inv n ell None = inr (map Some pts)).
  { rewrite <- P1. unfold make_shell. rewrite Le. reflexivity. }
  unfold new_hit_shell. rewrite M.
  destruct (shell_hits_spec c defaults vars Hs ND S Ne pts 0%Z) as (hs & -> & L & K).
  { intros v Iv. apply Q2; auto. }
  { lia. }
  { rewrite P2. destruct (Nat.even n); lia. }
  exists hs. split; auto. split; [congruence|]. intros i h En.
  destruct (K i h En) as (v & V1 & V2 & V3 & V4 & V5 & V6). split; [lia|]. split; auto. split; auto. split; auto.
  apply nth_error_In in V1. destruct (Q2 v V1) as (L1 & F1 & _).
  exists v. split; auto. split; auto.
  replace v with (minus v (repeat 0 d)); auto. clear - L1. revert v L1. generalize d as k.
  induction k as [|k IH]; intros [|x v] L; try discriminate; auto. unfold minus in *. cbn [repeat combine map fst snd].
  f_equal; [lra|]. apply IH. simpl in L. lia.
Qed.
Print Assumptions C57_hit_shell.

Example C57_example :
  let ell := [[4; 0]; [0; 100]] in
  positive_definite 2 ell /\ inverse_of 2 ell [[/ 4; 0]; [0; / 100]] /\
  (INR 3 - 1) * (INR 3 - 1) < 1000000000 /\ (Z.of_nat (3 ^ 2) <= 2147483648)%Z /\
  stored_dict [("pz", @PFloat RNum 200); ("mass", @PFloat RNum 105); ("pid", PInt (-13))] /\
  NoDup ["x"; "px"] /\ (forall k, In k ["x"; "px"] -> In k stored_floats) /\ ~ In "energy" ["x"; "px"].
Proof.
  cbv zeta. split; [apply pd2; lra|]. split.
  { split; [split; auto; intros r [<-|[<-|[]]]; reflexivity|]. exists [[1; 0]; [0; 1]]. split.
    - intros i j Hi Hj. destruct i as [|[|i]]; [| |lia]; (destruct j as [|[|j]]; [| |lia]); unfold ent; simpl; lra.
    - intros i j Hi Hj. destruct i as [|[|i]]; [| |lia]; (destruct j as [|[|j]]; [| |lia]); reflexivity. }
  split; [simpl; lra|]. split; [simpl; lia|]. split.
  { split; [repeat constructor; simpl; intuition discriminate|].
    intros k v [E|[E|[E|[]]]]; injection E as <- <-.
    - left. split; [vm_compute; tauto|eauto].
    - left. split; [vm_compute; tauto|eauto].
    - right. split; [vm_compute; tauto|]. exists (-13)%Z. split; auto. unfold small. lia. }
  split; [repeat constructor; simpl; intuition discriminate|].
  split; [intros k [<-|[<-|[]]]; vm_compute; tauto|simpl; intuition discriminate].
Qed.

(** ---- C62 --------------------------------------------------------------------------- *)

Lemma mean_single_fixed extra cv ms (w : RWorld) b vars : (forall v, In v vars -> assoc ms v = None) ->
  mean extra (mkFixed cv ms) w b vars = mean extra no_fixed w b vars.
Proof.
  intros H. unfold mean. generalize (@nil (string * RVal)) as acc. revert H.
  induction vars as [|v vars IH]; intros H acc; cbn [mean_loop]; auto.
  destruct (assoc acc v); [apply IH; intros; apply H; simpl; auto|].
  cbn [f_means no_fixed assoc]. rewrite (H v) by (simpl; auto). cbn [assoc].
  assert (E : moment_about extra (mkFixed cv ms) w b [v] [(v, @PFloat RNum n0)] =
              moment_about extra no_fixed w b [v] [(v, @PFloat RNum n0)]).
  { unfold moment_about, fixed_cov. cbn [f_covs no_fixed]. destruct cv; reflexivity. }
  rewrite E. destruct (moment_about extra no_fixed w b [v] [(v, @PFloat RNum n0)]); auto.
  apply IH. intros; apply H; simpl; auto.
Qed.

Lemma index_of_nth l k : In k l -> exists i, index_of l k = Some i /\ (i < List.length l)%nat /\ nth i l "" = k.
Proof.
  induction l as [|x l IH]; intros H; [destruct H|]. cbn [index_of].
  destruct (String.eqb_spec x k) as [->|N].
  - exists 0%nat. simpl. repeat split; auto. lia.
  - destruct H as [E|H]; [congruence|]. destruct (IH H) as (i & -> & L & E). exists (S i). simpl. repeat split; auto. lia.
Qed.

(** A stored covariance wins over everything else. *)
Lemma moment_stored extra (fx : Fixed RNum) (m : nat -> nat -> Num.num RNum) (w : RWorld) b u v d i j :
  usable w b -> f_covs fx = Some m -> index_of cov_variables u = Some i -> index_of cov_variables v = Some j ->
  moment extra fx w b [u; v] d = inr (m i j).
Proof.
  intros (U1 & U2 & U3) F I J. unfold moment. rewrite weight_check by auto. unfold fixed_cov. rewrite F, I, J. reflexivity.
Qed.

(** C62.  set_covariance_matrix() keeps the covariances and means of the ten standard
    variables: they and the emittances read the same before and after, and stay as they are
    when the hits change. *)
Theorem C62_stored : forall extra (w : RWorld) b val,
  usable w b -> readings extra w (b_hits b) stored_order val ->
  exists fx, set_covariance_matrix extra true None [] no_fixed w b = inr fx /\
    covariances_set fx = true /\ means_set fx = true /\
    (forall (w' : RWorld) b' u v d, usable w' b' -> In u stored_order -> In v stored_order ->
       moment extra fx w' b' [u; v] d = inr (covariance w (b_hits b) val u v)) /\
    (forall (w' : RWorld) b' v, In v stored_order ->
       mean_of extra fx w' b' v = inr (average w (b_hits b) (val v))) /\
    (forall axes vars, axes <> [] -> covariance_list axes false = Some vars ->
       get_emittance extra false fx w b axes None = get_emittance extra false no_fixed w b axes None) /\
    set_covariance_matrix extra false None [] fx w b = inr no_fixed.
Proof.
  intros extra w b val U Hr.
  destruct (cov_matrix_spec extra w b val U stored_order Hr) as (c & C1 & C2 & C3).
  pose proof U as (U1 & U2 & U3).
  destruct (mean_spec extra w b stored_order val U1 U2 U3 Hr) as (d & D1 & D2 & _).
  unfold set_covariance_matrix. change cov_variables with stored_order. rewrite C1. cbn [bindE].
  rewrite mean_single_fixed by reflexivity. rewrite D1. cbn [bindE].
  eexists. split; [reflexivity|]. split; [reflexivity|]. split.
  { unfold means_set. cbn [f_means]. destruct d; auto. specialize (D2 "x" (or_introl eq_refl)). discriminate. }
  split; [|split; [|split]].
  - intros w' b' u v dd U' Iu Iv.
    destruct (index_of_nth stored_order u Iu) as (i & I1 & I2 & I3).
    destruct (index_of_nth stored_order v Iv) as (j & J1 & J2 & J3).
    rewrite (moment_stored extra _ (ent c) w' b' u v dd i j); auto. rewrite C3, I3, J3 by auto. reflexivity.
  - intros w' b' v Iv. unfold mean_of, mean. cbn [mean_loop assoc f_means]. rewrite (D2 v Iv). cbn [mean_loop bindE assoc].
    cbn [app assoc]. rewrite String.eqb_refl. reflexivity.
  - intros axes vars Ha Hv.
    assert (Pv := proj1 (covariance_list_paired axes false vars) Hv).
    assert (Sub : forall k, In k vars -> In k stored_order).
    { intros k Ik. clear - Pv Ik. induction Pv as [|a m axes l I P IH]; [destruct Ik|].
      destruct Ik as [<-|[<-|Ik]]; auto; cbn in I;
        destruct I as [I|[I|[I|[I|[I|[]]]]]]; injection I as <- <-; vm_compute; tauto. }
    assert (Hrv : readings extra w (b_hits b) vars val) by (eapply readings_sub; eauto).
    destruct (cov_matrix_spec extra w b val U vars Hrv) as (cv & V1 & V2 & V3).
    destruct (paired_rows axes vars Pv) as (ind & I1 & I2 & I3).
    pose proof (paired_length _ _ _ Pv) as Lv.
    unfold get_emittance. rewrite Hv. unfold pick_cov, cov_picker. cbn [f_covs no_fixed bindE]. rewrite I1, V1. cbn [bindE].
    match goal with |- context [is_square ?m] => assert (E : m = cv) end.
    { rewrite I2, <- Lv.
      destruct (table_ent (List.length vars) (fun i j => ent c (2 * nth (i / 2) ind 0 + i mod 2)%nat (2 * nth (j / 2) ind 0 + j mod 2)%nat)) as [T1 T2].
      apply (square_ext (List.length vars)); auto. intros i j Hi Hj. rewrite T2, V3 by auto.
      destruct (I3 i Hi) as [Bi Ei]. destruct (I3 j Hj) as [Bj Ej].
      assert (Mi : (i mod 2 < 2)%nat) by (apply Nat.mod_upper_bound; lia).
      assert (Mj : (j mod 2 < 2)%nat) by (apply Nat.mod_upper_bound; lia).
      rewrite C3 by (cbn [stored_order List.length]; lia).
      rewrite (nth_error_nth' vars "" Hi) in Ei. rewrite (nth_error_nth' vars "" Hj) in Ej.
      rewrite (nth_error_nth _ _ "" Ei), (nth_error_nth _ _ "" Ej). reflexivity. }
    rewrite E. reflexivity.
  - reflexivity.
Qed.
Print Assumptions C62_stored.

(** C62.  While a matrix is stored, an origin given to moment is ignored. *)
Theorem C62_origin_ignored_refuted : forall extra (w : RWorld) b val u v (d : list (string * RVal)),
  usable w b -> readings extra w (b_hits b) stored_order val -> In u stored_order -> In v stored_order ->
  exists fx, set_covariance_matrix extra true None [] no_fixed w b = inr fx /\
    moment extra fx w b [u; v] d = moment extra fx w b [u; v] [].
Proof.
  intros extra w b val u v d U Hr Iu Iv. destruct (C62_stored extra w b val U Hr) as (fx & F & _ & _ & M & _).
  exists fx. split; auto. rewrite !M by auto. reflexivity.
Qed.
Print Assumptions C62_origin_ignored_refuted.

(** C62.  Calling set_covariance_matrix() again does not recalculate: the covariances kept are
    the old ones, whatever happened to the hits in between. *)
Theorem C62_recalculate_refuted : forall extra (w w' : RWorld) b b' val,
  usable w b -> readings extra w (b_hits b) stored_order val -> usable w' b' ->
  exists fx fx', set_covariance_matrix extra true None [] no_fixed w b = inr fx /\
    set_covariance_matrix extra true None [] fx w' b' = inr fx' /\
    forall u v d, In u stored_order -> In v stored_order ->
      moment extra fx' w' b' [u; v] d = inr (covariance w (b_hits b) val u v).
Proof.
  intros extra w w' b b' val U Hr U'. destruct (C62_stored extra w b val U Hr) as (fx & F & F1 & F2 & M & Mn & _).
  exists fx.
  assert (CO : forall vars d, (forall v, In v vars -> In v stored_order) -> exists d', complete_origin extra fx w' b' vars d = inr d').
  { induction vars as [|v vars IH]; intros d S; cbn [complete_origin]; [eauto|].
    destruct (assoc d v); [apply IH; intros; apply S; simpl; auto|].
    specialize (Mn w' b' v (S v (or_introl eq_refl))). unfold mean_of in Mn.
    destruct (mean extra fx w' b' [v]) as [e|dd]; [discriminate|]. cbn [bindE] in Mn.
    destruct (assoc dd v); [|discriminate]. apply IH. intros; apply S; simpl; auto. }
  destruct (CO stored_order [] ltac:(auto)) as (d' & D').
  set (n := List.length stored_order).
  set (g := fun i j => covariance w (b_hits b) val (nth (Nat.min i j) stored_order "") (nth (Nat.max i j) stored_order "")).
  assert (Nth : forall i, (i < n)%nat -> In (nth i stored_order "") stored_order) by (intros; apply nth_In; auto).
  assert (AI : forall {A} (l : list A) (f : A -> MErr + R) (g : A -> R), (forall x, In x l -> f x = inr (g x)) ->
     all_inr (map f l) = inr (map g l)).
  { intros A l f g' H. induction l as [|x l IH]; cbn [map all_inr]; auto.
    rewrite (H x) by (simpl; auto). rewrite IH by (intros; apply H; simpl; auto). reflexivity. }
  assert (AI2 : forall {A} (l : list A) (f : A -> MErr + list R) (g : A -> list R), (forall x, In x l -> f x = inr (g x)) ->
     all_inr (map f l) = inr (map g l)).
  { intros A l f g' H. induction l as [|x l IH]; cbn [map all_inr]; auto.
    rewrite (H x) by (simpl; auto). rewrite IH by (intros; apply H; simpl; auto). reflexivity. }
  assert (C : covariance_matrix extra fx w' b' stored_order [] = inr (map (fun i => map (g i) (seq 0 n)) (seq 0 n))).
  { unfold covariance_matrix. rewrite D'. apply AI2. intros i Hi. apply in_seq in Hi. apply AI. intros j Hj. apply in_seq in Hj.
    apply M; auto; apply Nth; lia. }
  destruct (table_ent n g) as [_ T2].
  set (tab := map (fun i => map (g i) (seq 0 n)) (seq 0 n)) in *.
  assert (ML : forall cv vars acc, (forall v, In v vars -> In v stored_order) ->
     exists dd, mean_loop extra (mkFixed cv (f_means fx)) w' b' vars acc = inr dd).
  { intros cv. induction vars as [|v vars IH]; intros acc S; cbn [mean_loop]; [eauto|].
    destruct (assoc acc v); [apply IH; intros; apply S; simpl; auto|]. cbn [f_means].
    destruct (assoc (f_means fx) v) as [x|] eqn:Ex; [apply IH; intros; apply S; simpl; auto|].
    exfalso. unfold set_covariance_matrix in F. change cov_variables with stored_order in F.
    destruct (cov_matrix_spec extra w b val U stored_order Hr) as (c0 & C0 & _). rewrite C0 in F. cbn [bindE] in F.
    destruct U as (U1 & U2 & U3). destruct (mean_spec extra w b stored_order val U1 U2 U3 Hr) as (d0 & D0 & D1 & _).
    rewrite mean_single_fixed in F by reflexivity. rewrite D0 in F. cbn [bindE] in F. injection F as <-. cbn [f_means] in Ex.
    rewrite (D1 v (S v (or_introl eq_refl))) in Ex. discriminate. }
  destruct (ML (Some (ent tab : nat -> nat -> Num.num RNum)) stored_order [] ltac:(auto)) as (dd & DD).
  exists (mkFixed (Some (ent tab : nat -> nat -> Num.num RNum)) dd). split; auto. split.
  { unfold set_covariance_matrix. change cov_variables with stored_order. rewrite C. cbn [bindE].
    unfold mean. fold tab. rewrite DD. reflexivity. }
  intros u v d Iu Iv.
  destruct (index_of_nth stored_order u Iu) as (i & I1 & I2 & I3).
  destruct (index_of_nth stored_order v Iv) as (j & J1 & J2 & J3).
  rewrite (moment_stored extra _ (ent tab) w' b' u v d i j); auto. rewrite T2 by auto.
  unfold g. f_equal. destruct (Nat.le_ge_cases i j) as [L|L].
  - rewrite Nat.min_l, Nat.max_r, I3, J3 by auto. reflexivity.
  - rewrite Nat.min_r, Nat.max_l, I3, J3 by auto. apply covariance_sym.
Qed.
Print Assumptions C62_recalculate_refuted.

Example C62_example : usable (wrun ex_four) ex_bunch4 /\
  readings ex_extra (wrun ex_four) (b_hits ex_bunch4) stored_order
    (fun v l => if String.eqb v "ct" then 200 else stored_val (wrun ex_four) v l).
Proof.
  split; [exact ex_four_usable|]. intros v l Hv Hl.
  destruct (String.eqb_spec v "ct") as [->|N].
  - exists (@PFloat RNum 200). split; [|split; [discriminate|reflexivity]].
    destruct Hl as [<-|[<-|[<-|[<-|[]]]]]; reflexivity.
  - apply (stored_readings ex_extra (wrun ex_four) (b_hits ex_bunch4) [v] ex_four_hits); simpl; auto.
    intros k [<-|[]]. simpl in Hv. repeat (destruct Hv as [<-|Hv]; [vm_compute; tauto|]). destruct Hv.
Qed.
