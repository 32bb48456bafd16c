(** Properties C37-C39, C58: ellipses, covariance lists and angular momentum. *)
From Coq Require Import Reals ZArith List Bool String Permutation Lia Lra.
From Verif Require Import Num WeightModel WeightProofs HitcoreModel HitcoreSpec HitcoreProofs
  PyLibModel PyLibProofs BunchModel BunchSpec BunchProofs HitPyModel HitPySpec HitPyProofs
  MomentModel BunchNumModel MomentSpec MomentProofs StatProofs CommonModel CommonSpec
  CommonProofs GridProofs MomentProps EllipseModel EllipseSpec EllipseProofs TwissProofs.
Import ListNotations.
Open Scope string_scope.
Open Scope list_scope.
Open Scope R_scope.

(** ---- C37 --------------------------------------------------------------------------- *)

(** C37.  With positive beta and emittance (and positive p and mass if momenta are used) the
    result is an ellipse; its area gives the emittance, its entries alpha and beta. *)
Theorem C37_ellipse_2d : forall (beta alpha eps p mass : R) (geometric : bool),
  0 < beta -> 0 < eps -> (geometric = false -> 0 < p /\ 0 < mass) ->
  let area := if geometric then eps else eps * mass in
  let per_p := if geometric then 1 else p in
  exists m, build_ellipse_2d beta alpha eps p mass geometric = inr m /\ ellipse 2 m /\
    sqrt (det2 m) = area /\
    ent m 0 0 * per_p / sqrt (det2 m) = beta /\ - ent m 0 1 / sqrt (det2 m) = alpha /\
    ent m 1 1 / per_p / sqrt (det2 m) = (1 + alpha * alpha) / beta.
Proof.
  intros beta alpha eps p mass geo Hb He Hg area per_p. unfold build_ellipse_2d, divE.
  destruct (Req_EM_T beta 0); [lra|]. cbn [bindE].
  destruct (Rle_dec beta 0); [lra|]. destruct (Rle_dec eps 0); [lra|].
  assert (K : forall xx xp pp, xx * pp - xp * xp = area * area -> 0 < area -> 0 < xx ->
    xx * per_p / area = beta -> - xp / area = alpha -> pp / per_p / area = (1 + alpha * alpha) / beta ->
    let m := [[xx; xp]; [xp; pp]] in
    ellipse 2 m /\
    sqrt (det2 m) = area /\
    ent m 0 0 * per_p / sqrt (det2 m) = beta /\ - ent m 0 1 / sqrt (det2 m) = alpha /\
    ent m 1 1 / per_p / sqrt (det2 m) = (1 + alpha * alpha) / beta).
  { intros xx xp pp D A X E1 E2 E3 m.
    assert (S : sqrt (det2 m) = area).
    { unfold det2, m, ent; simpl. rewrite D. apply sqrt_square. lra. }
    rewrite S. repeat split; auto.
    - intros [|[|i]] [|[|j]] Hi Hj; try lia; reflexivity.
    - intros row [<-|[<-|[]]]; reflexivity.
    - assert (P : positive_definite 2 m).
      { apply pd2; auto. rewrite D. apply Rmult_lt_0_compat; auto. }
      apply P. }
  destruct geo; cbn [bindE].
  - eexists. split; [reflexivity|]. apply K; unfold area, per_p; try (field; lra); try nra.
  - destruct Hg as [Hp Hm]; auto. destruct (Req_EM_T p 0); [lra|]. cbn [bindE].
    eexists. split; [reflexivity|].
    assert (0 < eps * mass) by (apply Rmult_lt_0_compat; auto).
    apply K; unfold area, per_p; try (field; lra); auto.
    apply Rmult_lt_0_compat; [|apply Rinv_0_lt_compat; auto].
    rewrite Rmult_assoc. apply Rmult_lt_0_compat; auto.
Qed.
Print Assumptions C37_ellipse_2d.

(** C37.  Other values raise: beta = 0 and p = 0 divide by zero, a negative beta or an
    emittance that is not positive is refused. *)
Theorem C37_rejects : forall (beta alpha eps p mass : R) (geometric : bool),
  (beta = 0 -> build_ellipse_2d beta alpha eps p mass geometric = inl MZeroDivision) /\
  (beta < 0 -> build_ellipse_2d beta alpha eps p mass geometric = inl MOther) /\
  (0 < beta -> eps <= 0 -> build_ellipse_2d beta alpha eps p mass geometric = inl MOther) /\
  (0 < beta -> 0 < eps -> geometric = false -> p = 0 ->
   build_ellipse_2d beta alpha eps p mass geometric = inl MZeroDivision).
Proof.
  intros beta alpha eps p mass geo. unfold build_ellipse_2d, divE.
  destruct (Req_EM_T beta 0); cbn [bindE]; [repeat split; intros; auto; lra|].
  destruct (Rle_dec beta 0); [repeat split; intros; auto; lra|].
  destruct (Rle_dec eps 0); [repeat split; intros; auto; lra|].
  repeat split; intros; subst; try lra. destruct (Req_EM_T 0 0); [reflexivity|congruence].
Qed.
Print Assumptions C37_rejects.

(** C37.  A momentum below zero is accepted and the result is not an ellipse. *)
Theorem C37_negative_momentum_refuted : forall (beta alpha eps p mass : R),
  0 < beta -> 0 < eps -> p < 0 -> 0 < mass ->
  exists m, build_ellipse_2d beta alpha eps p mass false = inr m /\ ~ positive_definite 2 m.
Proof.
  intros beta alpha eps p mass Hb He Hp Hm. unfold build_ellipse_2d, divE.
  destruct (Req_EM_T beta 0); [lra|]. cbn [bindE].
  destruct (Rle_dec beta 0); [lra|]. destruct (Rle_dec eps 0); [lra|].
  destruct (Req_EM_T p 0); [lra|]. cbn [bindE].
  eexists. split; [reflexivity|]. intros P. apply pd2_rev in P. destruct P as [P _].
  assert (0 < beta * eps * mass) by (repeat apply Rmult_lt_0_compat; auto).
  assert (/ p < 0) by (apply Rinv_lt_0_compat; auto). unfold Rdiv in P. nra.
Qed.
Print Assumptions C37_negative_momentum_refuted.

Example C37_example : 0 < 333 /\ 0 < 6 /\ (false = false -> 0 < 200 /\ 0 < 105.658).
Proof. repeat split; lra. Qed.

(** ---- C38 --------------------------------------------------------------------------- *)

(** The difference of the rotation of the field and the canonical rotation. *)
Definition kappa (beta p L bz : R) : R := beta * (light * bz / 2 / p) - L.

(** C38.  Shape of the result for every accepted input with p > 0: cov(x,x) = cov(y,y),
    cov(px,px) = cov(py,py), cov(x,px) = cov(y,py), cov(x,py) = -cov(y,px), all other
    covariances 0, symmetric; its determinant; and it is an ellipse exactly when
    kappa^2 (q^2 - 1) < 1, in particular for charges 1 and -1. *)
Theorem C38_penn_ellipse : forall eps mass beta alpha p L bz q : R,
  0 < eps -> 0 < mass -> 0 < beta -> 0 < p ->
  let kap := kappa beta p L bz in
  exists m, build_penn_ellipse eps mass beta alpha p L bz q = inr m /\
    shape 4 4 m /\ symmetric 4 m /\
    ent m 0 0 = eps * mass * beta / p /\ ent m 2 2 = ent m 0 0 /\
    ent m 0 1 = - (eps * mass * alpha) /\ ent m 2 3 = ent m 0 1 /\
    ent m 1 1 = eps * mass * p * (1 + alpha * alpha + kap * kap) / beta /\ ent m 3 3 = ent m 1 1 /\
    ent m 0 3 = - (eps * mass * kap * q) /\ ent m 2 1 = - ent m 0 3 /\
    ent m 0 2 = 0 /\ ent m 1 3 = 0 /\
    det m = (eps * mass) ^ 4 * (1 + kap * kap * (1 - q * q)) ^ 2 /\
    (positive_definite 4 m <-> kap * kap * (q * q - 1) < 1).
Proof.
  intros eps mass beta alpha p L bz q He Hm Hb Hp kap. unfold build_penn_ellipse, divE.
  destruct (Rle_dec beta 0); [lra|]. destruct (Rle_dec eps 0); [lra|]. destruct (Rle_dec mass 0); [lra|].
  destruct (Req_EM_T p 0); [lra|]. cbn [bindE]. rewrite light_c.
  change (beta * (light * bz / 2 / p) - L) with kap.
  set (a := eps * mass * beta / p). set (b := - eps * mass * alpha).
  set (c := eps * mass * p * ((1 + alpha * alpha + kap * kap) / beta)). set (d := - eps * mass * kap * q).
  eexists. split; [reflexivity|]. change (shape 4 4 (cyl a b c d) /\ symmetric 4 (cyl a b c d) /\
    a = eps * mass * beta / p /\ a = a /\ b = - (eps * mass * alpha) /\ b = b /\
    c = eps * mass * p * (1 + alpha * alpha + kap * kap) / beta /\ c = c /\
    d = - (eps * mass * kap * q) /\ - d = - d /\ 0 = 0 /\ 0 = 0 /\
    det (cyl a b c d) = (eps * mass) ^ 4 * (1 + kap * kap * (1 - q * q)) ^ 2 /\
    (positive_definite 4 (cyl a b c d) <-> kap * kap * (q * q - 1) < 1)).
  assert (D : a * c - b * b - d * d = (eps * mass) * (eps * mass) * (1 + kap * kap * (1 - q * q))).
  { unfold a, b, c, d. field. lra. }
  assert (P : 0 < (eps * mass) * (eps * mass)) by (repeat apply Rmult_lt_0_compat; auto).
  assert (A : 0 < a).
  { unfold a, Rdiv. repeat apply Rmult_lt_0_compat; auto. apply Rinv_0_lt_compat; auto. }
  split; [apply cyl_shape|]. split; [apply cyl_sym|]. split; [reflexivity|]. split; [reflexivity|].
  split; [unfold b; ring|]. split; [reflexivity|]. split; [unfold c; field; lra|]. split; [reflexivity|].
  split; [unfold d; ring|]. split; [reflexivity|]. split; [reflexivity|]. split; [reflexivity|].
  split; [rewrite cyl_det, D; ring|]. split; intros H.
  - apply cyl_pd_rev in H. destruct H as [_ H]. rewrite D in H.
    assert (0 < 1 + kap * kap * (1 - q * q)); [|lra].
    apply (Rmult_lt_reg_l (eps * mass * (eps * mass))); auto. rewrite Rmult_0_r. auto.
  - apply cyl_pd; auto. rewrite D. apply Rmult_lt_0_compat; auto. lra.
Qed.
Print Assumptions C38_penn_ellipse.

(** C38, particles of charge 1 or -1: an ellipse with determinant (emittance mass)^4. *)
Theorem C38_unit_charge : forall eps mass beta alpha p L bz q : R,
  0 < eps -> 0 < mass -> 0 < beta -> 0 < p -> q = 1 \/ q = -1 ->
  exists m, build_penn_ellipse eps mass beta alpha p L bz q = inr m /\ ellipse 4 m /\
    det m = (eps * mass) ^ 4.
Proof.
  intros eps mass beta alpha p L bz q He Hm Hb Hp Hq.
  destruct (C38_penn_ellipse eps mass beta alpha p L bz q He Hm Hb Hp) as (m & M & _ & S & _ & _ & _ & _ & _ & _ & _ & _ & _ & _ & D & P).
  assert (E : q * q = 1) by (destruct Hq as [-> | ->]; ring).
  exists m. split; auto. split; [split; auto; apply P|]; rewrite ?D, ?E; try lra; ring.
Qed.
Print Assumptions C38_unit_charge.

(** C38.  Beta, emittance or mass that is not positive is refused; p = 0 divides by zero. *)
Theorem C38_rejects : forall eps mass beta alpha p L bz q : R,
  (beta <= 0 \/ eps <= 0 \/ mass <= 0 ->
   build_penn_ellipse eps mass beta alpha p L bz q = inl MOther) /\
  (0 < beta -> 0 < eps -> 0 < mass -> p = 0 ->
   build_penn_ellipse eps mass beta alpha p L bz q = inl MZeroDivision).
Proof.
  intros eps mass beta alpha p L bz q. unfold build_penn_ellipse, divE.
  destruct (Rle_dec beta 0); [split; intros; auto; lra|].
  destruct (Rle_dec eps 0); [split; intros; auto; lra|].
  destruct (Rle_dec mass 0); [split; intros; auto; lra|].
  split; intros; [lra|]. subst. destruct (Req_EM_T 0 0); [reflexivity|congruence].
Qed.
Print Assumptions C38_rejects.

(** C38.  A momentum below zero is accepted and never gives an ellipse. *)
Theorem C38_negative_momentum_refuted : forall eps mass beta alpha p L bz q : R,
  0 < eps -> 0 < mass -> 0 < beta -> p < 0 ->
  exists m, build_penn_ellipse eps mass beta alpha p L bz q = inr m /\ ~ positive_definite 4 m.
Proof.
  intros eps mass beta alpha p L bz q He Hm Hb Hp. unfold build_penn_ellipse, divE.
  destruct (Rle_dec beta 0); [lra|]. destruct (Rle_dec eps 0); [lra|]. destruct (Rle_dec mass 0); [lra|].
  destruct (Req_EM_T p 0); [lra|]. cbn [bindE]. eexists. split; [reflexivity|].
  intros P. destruct (cyl_pd_rev _ _ _ _ P) as [A _].
  assert (0 < eps * mass * beta) by (repeat apply Rmult_lt_0_compat; auto).
  assert (/ p < 0) by (apply Rinv_lt_0_compat; auto). unfold Rdiv in A. nra.
Qed.
Print Assumptions C38_negative_momentum_refuted.

(** C38.  The angular momentum of the ellipse.  A beam centred on the axis with this
    covariance matrix has kinetic angular momentum cov(x,py) - cov(y,px); adding the
    canonical term as get_canonical_angular_momentum does gives 2 emittance mass L for
    positive particles. *)
Theorem C38_angular_momentum : forall eps mass beta alpha p L bz q : R,
  0 < eps -> 0 < mass -> 0 < beta -> 0 < p ->
  exists m, build_penn_ellipse eps mass beta alpha p L bz q = inr m /\
    let kinetic := ent m 0 3 - ent m 2 1 in
    let canonical := kinetic + light * bz * (ent m 0 0 + ent m 2 2) / 2 in
    kinetic = - 2 * (eps * mass) * kappa beta p L bz * q /\
    (q = 1 -> canonical = 2 * (eps * mass) * L).
Proof.
  intros eps mass beta alpha p L bz q He Hm Hb Hp.
  destruct (C38_penn_ellipse eps mass beta alpha p L bz q He Hm Hb Hp)
    as (m & M & _ & _ & XX & YY & _ & _ & _ & _ & XPY & YPX & _).
  exists m. split; auto. cbv zeta. rewrite YPX, YY, XX, XPY. split; [ring|].
  intros ->. unfold kappa. field. lra.
Qed.
Print Assumptions C38_angular_momentum.

(** C38.  For negative particles the same sum is not the requested canonical angular
    momentum (unless twice the field term happens to equal twice L). *)
Theorem C38_angular_momentum_negative_refuted : forall eps mass beta alpha p L bz : R,
  0 < eps -> 0 < mass -> 0 < beta -> 0 < p -> kappa beta p L bz <> 0 ->
  exists m, build_penn_ellipse eps mass beta alpha p L bz (-1) = inr m /\
    ent m 0 3 - ent m 2 1 + light * bz * (ent m 0 0 + ent m 2 2) / 2 <> 2 * (eps * mass) * L.
Proof.
  intros eps mass beta alpha p L bz He Hm Hb Hp Hk.
  destruct (C38_penn_ellipse eps mass beta alpha p L bz (-1) He Hm Hb Hp)
    as (m & M & _ & _ & XX & YY & _ & _ & _ & _ & XPY & YPX & _).
  exists m. split; auto. rewrite YPX, YY, XX, XPY. intros E. apply Hk.
  assert (0 < eps * mass) by (apply Rmult_lt_0_compat; auto).
  assert (F : 4 * (eps * mass) * kappa beta p L bz = 0).
  { replace (4 * (eps * mass) * kappa beta p L bz) with
      ((- (eps * mass * kappa beta p L bz * -1) - - - (eps * mass * kappa beta p L bz * -1) +
        light * bz * (eps * mass * beta / p + eps * mass * beta / p) / 2) - 2 * (eps * mass) * L).
    - rewrite E. ring.
    - unfold kappa. field. lra. }
  apply Rmult_integral in F. destruct F; auto. lra.
Qed.
Print Assumptions C38_angular_momentum_negative_refuted.

Example C38_example : exists eps mass beta p L bz : R,
  0 < eps /\ 0 < mass /\ 0 < beta /\ 0 < p /\ kappa beta p L bz <> 0.
Proof. exists 6, 105, 333, 200, (-1), 0. unfold kappa, light. repeat split; lra. Qed.

(** ---- C39 --------------------------------------------------------------------------- *)

(** C39.  axis_list_to_covariance_list interleaves the axes with their momenta (px, py, pz,
    energy) or slopes, in the order asked for, twice as many names, and raises exactly if a
    name is not one of x, y, z, t, ct. *)
Theorem C39_covariance_list : forall (axes : list string) (geometric : bool),
  (forall l, covariance_list axes geometric = Some l <-> paired geometric axes l) /\
  (forall l, covariance_list axes geometric = Some l ->
     List.length l = (2 * List.length axes)%nat /\
     forall i a, nth_error axes i = Some a ->
       nth_error l (2 * i) = Some a /\
       exists m, nth_error l (2 * i + 1) = Some m /\ In (a, m) (conjugates geometric)) /\
  (covariance_list axes geometric = None <->
   exists a, In a axes /\ ~ In a ["x"; "y"; "z"; "t"; "ct"]).
Proof.
  intros axes geo. split; [apply covariance_list_paired|]. split.
  - intros l H. apply covariance_list_paired in H. split; [eapply paired_length; eauto|].
    induction H as [|a m axes l Hin H IH]; intros i x E; [destruct i; discriminate|].
    destruct i as [|i]; cbn [nth_error] in E.
    + injection E as <-. cbn. eauto.
    + replace (2 * S i)%nat with (S (S (2 * i))) by lia. cbn [nth_error plus]. apply IH; auto.
  - assert (K : forall a, (exists m, In (a, m) (conjugates geo)) <-> In a ["x"; "y"; "z"; "t"; "ct"]).
    { intros a. destruct geo; cbn; split.
      all: intros H; try (destruct H as (m & H)); repeat match goal with H : _ \/ _ |- _ => destruct H end;
        try contradiction; try match goal with H : (_, _) = (_, _) |- _ => injection H as <- <- end; subst; eauto 10. }
    split.
    + induction axes as [|a r IH]; cbn [covariance_list]; [discriminate|].
      destruct (momentum_variable a geo) as [m|] eqn:E.
      * destruct (covariance_list r geo); [discriminate|]. intros _.
        destruct IH as (x & X1 & X2); auto. exists x. simpl; auto.
      * intros _. exists a. split; [simpl; auto|]. intros H. apply K in H. destruct H as (m & H).
        apply momentum_variable_in in H. congruence.
    + intros (a & Ia & Na). destruct (covariance_list axes geo) as [l|] eqn:E; auto. exfalso.
      apply covariance_list_paired in E. apply Na, K.
      induction E as [|b m axes l Hin E IH]; [destruct Ia|]. destruct Ia as [<-|Ia]; eauto.
Qed.
Print Assumptions C39_covariance_list.

(** C39.  The matrix picked from a stored matrix has exactly the rows and columns of the
    requested variables, in the requested order; a momentum row is the one that follows its
    position row (which decides between the two rows called energy). *)
Theorem C39_picker : forall (fx : Fixed RNum) (covs : nat -> nat -> R) (axes l : list string),
  f_covs fx = Some covs -> covariance_list axes false = Some l ->
  exists m row, cov_picker fx axes = inr (Some m) /\ square (List.length l) m /\
    (forall i, (i < List.length l)%nat -> (row i < 10)%nat /\ nth_error stored_order (row i) = nth_error l i) /\
    (forall k, (2 * k + 1 < List.length l)%nat -> row (2 * k + 1)%nat = S (row (2 * k)%nat)) /\
    (forall i j, (i < List.length l)%nat -> (j < List.length l)%nat -> ent m i j = covs (row i) (row j)).
Proof.
  intros fx covs axes l F L. apply covariance_list_paired in L.
  destruct (paired_rows axes l L) as (ind & I1 & I2 & I3).
  pose proof (paired_length _ _ _ L) as N.
  unfold cov_picker. rewrite F, I1. eexists.
  exists (fun i => (2 * nth (i / 2) ind 0 + i mod 2)%nat). split; [reflexivity|].
  rewrite I2, <- N.
  destruct (table_ent (List.length l) (fun i j =>
    covs (2 * nth (i / 2) ind 0 + i mod 2)%nat (2 * nth (j / 2) ind 0 + j mod 2)%nat)) as [T1 T2].
  split; [exact T1|]. split; [|split; [|exact T2]].
  - intros i Hi. destruct (I3 i Hi) as [A B]. split; auto.
    pose proof (Nat.mod_upper_bound i 2). lia.
  - intros k Hk. cbv beta.
    replace ((2 * k + 1) / 2)%nat with k by (rewrite Nat.mul_comm, Nat.div_add_l; simpl; lia).
    replace ((2 * k) / 2)%nat with k by (rewrite Nat.mul_comm, Nat.div_mul; lia).
    replace ((2 * k + 1) mod 2)%nat with 1%nat by (rewrite Nat.add_comm, Nat.mul_comm, Nat.mod_add; auto).
    replace ((2 * k) mod 2)%nat with 0%nat by (rewrite Nat.mul_comm, Nat.mod_mul; auto). lia.
Qed.
Print Assumptions C39_picker.

(** C39.  A list of names is an axis list exactly if all names are axes. *)
Theorem C39_axis_names : forall names : list string,
  (check_axis_list names = Some names <-> forall k, In k names -> In k ["x"; "y"; "z"; "t"; "ct"]) /\
  (check_axis_list names = None <-> exists k, In k names /\ ~ In k ["x"; "y"; "z"; "t"; "ct"]).
Proof.
  intros names. unfold check_axis_list.
  assert (K : forall k, existsb (String.eqb k) axis_list = true <-> In k ["x"; "y"; "z"; "t"; "ct"]).
  { intros k. rewrite existsb_exists. split.
    - intros (a & A & B). apply String.eqb_eq in B. subst. exact A.
    - intros H. exists k. split; auto. apply String.eqb_refl. }
  destruct (forallb (fun k => existsb (String.eqb k) axis_list) names) eqn:E.
  - assert (F := proj1 (forallb_forall _ _) E). split; split; try discriminate; auto.
    + intros _ k Hk. apply K, F; auto.
    + intros (k & A & B). exfalso. apply B, K, F; auto.
  - split; split; try discriminate; auto.
    + intros H. exfalso. assert (T : forallb (fun k => existsb (String.eqb k) axis_list) names = true).
      { apply forallb_forall. intros k Hk. apply K, H; auto. } congruence.
    + intros _. induction names as [|a r IH]; [discriminate|]. cbn [forallb] in E.
      destruct (existsb (String.eqb a) axis_list) eqn:Ea.
      * destruct IH as (k & A & B); [exact E|]. exists k; simpl; auto.
      * exists a. split; [simpl; auto|]. intros H. apply K in H. congruence.
Qed.
Print Assumptions C39_axis_names.

Example C39_example : covariance_list ["ct"; "x"] false = Some ["ct"; "energy"; "x"; "px"] /\
  covariance_list ["y"] true = Some ["y"; "y'"] /\ covariance_list ["x"; "px"] false = None.
Proof. repeat split. Qed.

(** ---- emittance of a given ellipse -------------------------------------------------------- *)

(** C37.  get_emittance of an ellipse made by build_ellipse_2d is the emittance it was made
    with, if the same kind of momentum and the mass of the first hit are used. *)
Theorem C37_emittance_round_trip : forall extra (geometric : bool) fx w b a (beta alpha eps p mass : R),
  In a ["x"; "y"; "z"; "t"; "ct"] ->
  0 < beta -> 0 < eps -> (geometric = false -> 0 < p /\ 0 < mass) ->
  (geometric = false -> first_hit w b "mass" = inr mass) ->
  exists m, build_ellipse_2d beta alpha eps p mass geometric = inr m /\
    get_emittance extra geometric fx w b [a] (Some m) = inr (Some eps).
Proof.
  intros extra geo fx w b a beta alpha eps p mass Ia Hb He Hp Hm.
  destruct (C37_ellipse_2d beta alpha eps p mass geo Hb He Hp) as (m & M & [_ [Sh _]] & A & _).
  exists m. split; auto. unfold get_emittance, covariance_list.
  destruct (momentum_variable a geo) as [mo|] eqn:E.
  2:{ exfalso. destruct (proj1 (proj2 (proj2 (C39_covariance_list [a] geo)))) as (x & [<-|[]] & X); auto.
      cbn [covariance_list]. rewrite E. reflexivity. }
  cbn [pick_cov bindE]. rewrite (square_is_square 2 m) by exact Sh.
  assert (D : det m = det2 m /\ 0 <= det2 m).
  { destruct m as [|r1 [|r2 [|r3 m]]]; try (destruct Sh as [Sh _]; simpl in Sh; lia).
    destruct r1 as [|x1 [|x2 [|x3 r1]]]; try (destruct Sh as [_ Sh]; specialize (Sh _ (or_introl eq_refl)); simpl in Sh; lia).
    destruct r2 as [|y1 [|y2 [|y3 r2]]]; try (destruct Sh as [_ Sh]; specialize (Sh _ (or_intror (or_introl eq_refl))); simpl in Sh; lia).
    rewrite det_2. split; [reflexivity|].
    destruct (Rle_lt_dec 0 (det2 [[x1; x2]; [y1; y2]])) as [H|H]; auto. exfalso.
    assert (Z : sqrt (det2 [[x1; x2]; [y1; y2]]) = 0).
    { apply sqrt_neg_0. lra. }
    rewrite Z in A. destruct geo; [lra|]. destruct Hp; auto. assert (0 < eps * mass) by (apply Rmult_lt_0_compat; auto). lra. }
  destruct D as [-> D0]. change (List.length [a; mo]) with 2%nat. rewrite (root_sqrt _ D0), A.
  destruct geo; [reflexivity|]. rewrite Hm by auto. destruct Hp as [_ Hp]; auto. cbn [bindE].
  destruct (Req_EM_T mass 0); [lra|]. do 2 f_equal. field. lra.
Qed.
Print Assumptions C37_emittance_round_trip.

(** C38.  The four dimensional emittance of a Penn ellipse is the one asked for. *)
Theorem C38_emittance_round_trip : forall extra fx w b (eps mass beta alpha p L bz q : R),
  0 < eps -> 0 < mass -> 0 < beta -> 0 < p -> q = 1 \/ q = -1 ->
  first_hit w b "mass" = inr mass ->
  exists m, build_penn_ellipse eps mass beta alpha p L bz q = inr m /\
    get_emittance extra false fx w b ["x"; "y"] (Some m) = inr (Some eps).
Proof.
  intros extra fx w b eps mass beta alpha p L bz q He Hm Hb Hp Hq M.
  destruct (C38_unit_charge eps mass beta alpha p L bz q He Hm Hb Hp Hq) as (m & E & [_ [Sh _]] & D).
  exists m. split; auto. unfold get_emittance.
  replace (covariance_list ["x"; "y"] false) with (Some ["x"; "px"; "y"; "py"]) by reflexivity.
  cbn [pick_cov bindE]. rewrite (square_is_square 4 m) by exact Sh. rewrite M. cbn [bindE].
  change (List.length ["x"; "px"; "y"; "py"]) with 4%nat. rewrite D, root_pow; [|apply Rmult_lt_0_compat; auto|lia].
  destruct (Req_EM_T mass 0); [lra|]. do 2 f_equal. field. lra.
Qed.
Print Assumptions C38_emittance_round_trip.

(** ---- C58 --------------------------------------------------------------------------- *)

(** C58.  The kinetic angular momentum about an axis is the weighted average of
    (x-x0)(py-py0) - (y-y0)(px-px0). *)
Theorem C58_kinetic : forall extra (w : RWorld) b axis (val : string -> nat -> R) (m : string -> R),
  usable w b -> readings extra w (b_hits b) ["x"; "y"; "px"; "py"] val ->
  (forall v, In v ["x"; "y"; "px"; "py"] -> dict_has axis v (m v)) ->
  kinetic_angular_momentum extra false no_fixed w b axis =
  inr (average w (b_hits b) (fun l =>
    (val "x" l - m "x") * (val "py" l - m "py") - (val "y" l - m "y") * (val "px" l - m "px"))).
Proof.
  intros extra w b axis val m U Hr Hd. unfold kinetic_angular_momentum.
  rewrite (about_spec extra w b val U "x" "py" axis m); try (apply Hd; simpl; tauto).
  2:{ eapply readings_sub; eauto. intros v [<-|[<-|[]]]; simpl; tauto. }
  rewrite (about_spec extra w b val U "y" "px" axis m); try (apply Hd; simpl; tauto).
  2:{ eapply readings_sub; eauto. intros v [<-|[<-|[]]]; simpl; tauto. }
  cbn [bindE]. f_equal.
  rewrite (average_ext w w (b_hits b) (fun l => (val "x" l - m "x") * (val "py" l - m "py") -
    (val "y" l - m "y") * (val "px" l - m "px"))
    (fun l => (val "x" l - m "x") * (val "py" l - m "py") +
    (-1) * ((val "y" l - m "y") * (val "px" l - m "px")))); auto; [|intros; ring].
  rewrite average_plus, average_scale. ring.
Qed.
Print Assumptions C58_kinetic.

(** C58, geometric variables: slopes instead of momenta, times the mean of pz. *)
Theorem C58_kinetic_geometric : forall extra (w : RWorld) b axis (val : string -> nat -> R) (m : string -> R),
  usable w b -> readings extra w (b_hits b) ["x"; "y"; "x'"; "y'"; "pz"] val ->
  (forall v, In v ["x"; "y"; "x'"; "y'"] -> dict_has axis v (m v)) ->
  kinetic_angular_momentum extra true no_fixed w b axis =
  inr (average w (b_hits b) (fun l =>
    (val "x" l - m "x") * (val "y'" l - m "y'") - (val "y" l - m "y") * (val "x'" l - m "x'"))
    * average w (b_hits b) (val "pz")).
Proof.
  intros extra w b axis val m U Hr Hd. unfold kinetic_angular_momentum.
  rewrite (about_spec extra w b val U "x" "y'" axis m); try (apply Hd; simpl; tauto).
  2:{ eapply readings_sub; eauto. intros v [<-|[<-|[]]]; simpl; tauto. }
  rewrite (about_spec extra w b val U "y" "x'" axis m); try (apply Hd; simpl; tauto).
  2:{ eapply readings_sub; eauto. intros v [<-|[<-|[]]]; simpl; tauto. }
  rewrite (mean_of_spec extra w b val U "pz").
  2:{ eapply readings_sub; eauto. intros v [<-|[]]; simpl; tauto. }
  cbn [bindE]. f_equal. f_equal.
  rewrite (average_ext w w (b_hits b) (fun l => (val "x" l - m "x") * (val "y'" l - m "y'") -
    (val "y" l - m "y") * (val "x'" l - m "x'"))
    (fun l => (val "x" l - m "x") * (val "y'" l - m "y'") +
    (-1) * ((val "y" l - m "y") * (val "x'" l - m "x'")))); auto; [|intros; ring].
  rewrite average_plus, average_scale. ring.
Qed.
Print Assumptions C58_kinetic_geometric.

(** C58.  The canonical angular momentum adds c bz (<x^2> + <y^2>) / 2, with x and y from the
    field axis; bz defaults to the field at the first hit. *)
Theorem C58_canonical : forall extra flag (w : RWorld) b bz fa axis (val : string -> nat -> R) (f : string -> R) l bz1,
  usable w b -> readings extra w (b_hits b) ["x"; "y"] val ->
  (forall v, In v ["x"; "y"] -> dict_has fa v (f v)) ->
  kinetic_angular_momentum extra flag no_fixed w b axis = inr l ->
  (match bz with Some x => x = bz1 | None => first_hit w b "bz" = inr bz1 end) ->
  canonical_angular_momentum extra flag no_fixed w b bz fa axis =
  inr (l + light * bz1 / 2 * average w (b_hits b) (fun k =>
    (val "x" k - f "x") * (val "x" k - f "x") + (val "y" k - f "y") * (val "y" k - f "y"))).
Proof.
  intros extra flag w b bz fa axis val f l bz1 U Hr Hd Hl Hb. unfold canonical_angular_momentum.
  replace (match bz with Some x => inr x | None => first_hit w b "bz" end) with (@inr MErr R bz1)
    by (destruct bz; [subst; reflexivity|symmetry; exact Hb]).
  cbn [bindE]. rewrite Hl. cbn [bindE].
  rewrite (about_spec extra w b val U "x" "x" fa f); try (apply Hd; simpl; tauto).
  2:{ eapply readings_sub; eauto. intros v [<-|[<-|[]]]; simpl; tauto. }
  rewrite (about_spec extra w b val U "y" "y" fa f); try (apply Hd; simpl; tauto).
  2:{ eapply readings_sub; eauto. intros v [<-|[<-|[]]]; simpl; tauto. }
  cbn [bindE]. f_equal. rewrite average_plus, light_c. field.
Qed.
Print Assumptions C58_canonical.

(** C58.  Additive: the total of two bunches joined together is the sum of the totals. *)
Theorem C58_additive : forall extra (w : RWorld) b1 b2 b axis (val : string -> nat -> R) (m : string -> R) l1 l2 l,
  usable w b1 -> usable w b2 -> usable w b -> b_hits b = b_hits b1 ++ b_hits b2 ->
  readings extra w (b_hits b1) ["x"; "y"; "px"; "py"] val ->
  readings extra w (b_hits b2) ["x"; "y"; "px"; "py"] val ->
  readings extra w (b_hits b) ["x"; "y"; "px"; "py"] val ->
  (forall v, In v ["x"; "y"; "px"; "py"] -> dict_has axis v (m v)) ->
  kinetic_angular_momentum extra false no_fixed w b1 axis = inr l1 ->
  kinetic_angular_momentum extra false no_fixed w b2 axis = inr l2 ->
  kinetic_angular_momentum extra false no_fixed w b axis = inr l ->
  total_weight w (b_hits b) * l = total_weight w (b_hits b1) * l1 + total_weight w (b_hits b2) * l2.
Proof.
  intros extra w b1 b2 b axis val m l1 l2 l U1 U2 U E R1 R2 R3 Hd H1 H2 H.
  rewrite (C58_kinetic extra w b1 axis val m U1 R1 Hd) in H1. injection H1 as <-.
  rewrite (C58_kinetic extra w b2 axis val m U2 R2 Hd) in H2. injection H2 as <-.
  rewrite (C58_kinetic extra w b axis val m U R3 Hd) in H. injection H as <-.
  assert (A : forall hits f, total_weight w hits <> 0 -> total_weight w hits * average w hits f =
     rsum (fun k => wt w k * f k) hits).
  { intros. unfold average. field. auto. }
  rewrite !A by (eapply usable_nz; eauto). rewrite E, rsum_app. reflexivity.
Qed.
Print Assumptions C58_additive.

(** Rotation by an angle with cosine c and sine s, of x, y, px, py. *)
Definition rotation (c s : R) : list (list R) :=
  [[c; - s; 0; 0]; [s; c; 0; 0]; [0; 0; c; - s]; [0; 0; s; c]].

(** C58.  Rotating the bunch with abelian_transformation leaves the angular momentum about
    the z axis unchanged. *)
Theorem C58_rotation_invariant : forall extra (w : RWorld) b (c s : R) l,
  usable w b -> NoDup (b_hits b) -> c * c + s * s = 1 ->
  kinetic_angular_momentum extra false no_fixed w b default_axis = inr l ->
  exists w', bunch_abelian w b ["x"; "y"; "px"; "py"] (rotation c s) [] [] "" = (w', None) /\
    kinetic_angular_momentum extra false no_fixed w' b default_axis = inr l.
Proof.
  intros extra w b c s l U Hnd Hcs H. pose proof U as (U1 & U2 & U3).
  destruct (bunch_abelian_spec w b ["x"; "y"; "px"; "py"] (rotation c s) [] []) as (w' & W1 & W2 & W3 & W4 & _ & _ & W7).
  - exact Hnd.
  - apply U3.
  - repeat constructor; simpl; intuition discriminate.
  - intros k Hk. split.
    + destruct Hk as [<-|[<-|[<-|[<-|[]]]]]; vm_compute; tauto.
    + intros ->. simpl in Hk. intuition discriminate.
  - split; auto. intros r [<-|[<-|[<-|[<-|[]]]]]; reflexivity.
  - exists w'. split; auto.
    assert (Hs : forall v, In v ["x"; "y"; "px"; "py"] -> In v stored_floats).
    { intros v [<-|[<-|[<-|[<-|[]]]]]; vm_compute; tauto. }
    assert (U' : usable w' b).
    { split; [congruence|]. split; auto. split; [exact W3|].
      rewrite (total_weight_ext w w' (b_hits b) W4). apply U3. }
    assert (R0 : readings extra w (b_hits b) ["x"; "y"; "px"; "py"] (stored_val w)).
    { apply stored_readings; auto. apply U3. }
    assert (R1 : readings extra w' (b_hits b) ["x"; "y"; "px"; "py"] (stored_val w')).
    { apply stored_readings; auto. }
    assert (D : forall v, In v ["x"; "y"; "px"; "py"] -> dict_has default_axis v 0).
    { intros v Hv. exists (PInt 0%Z). split; [|split; [discriminate|reflexivity]].
      destruct Hv as [<-|[<-|[<-|[<-|[]]]]]; reflexivity. }
    rewrite (C58_kinetic extra w b _ _ (fun _ => 0) U R0 D) in H.
    rewrite (C58_kinetic extra w' b _ _ (fun _ => 0) U' R1 D). rewrite <- H.
    f_equal. apply average_ext; auto. intros k Hk.
    assert (X := W7 0%nat "x" k eq_refl Hk). assert (Y := W7 1%nat "y" k eq_refl Hk).
    assert (PX := W7 2%nat "px" k eq_refl Hk). assert (PY := W7 3%nat "py" k eq_refl Hk).
    unfold ent, rotation in X, Y, PX, PY. cbn [sum_n nth List.length entry] in X, Y, PX, PY.
    rewrite X, Y, PX, PY.
    transitivity ((c * c + s * s) * ((stored_val w "x" k) * (stored_val w "py" k) -
      (stored_val w "y" k) * (stored_val w "px" k))); [ring|]. rewrite Hcs. ring.
Qed.
Print Assumptions C58_rotation_invariant.

Example C58_example : exists l,
  usable (wrun ex_two) ex_bunch /\ NoDup (b_hits ex_bunch) /\
  (3 / 5) * (3 / 5) + (4 / 5) * (4 / 5) = 1 /\
  kinetic_angular_momentum (fun _ _ _ _ => None) false no_fixed (wrun ex_two) ex_bunch default_axis = inr l.
Proof.
  assert (U : usable (wrun ex_two) ex_bunch).
  { split; [reflexivity|]. split; [reflexivity|]. exact ex_two_weight. }
  eexists. split; auto. split; [repeat constructor; simpl; intuition discriminate|]. split; [lra|].
  apply (C58_kinetic _ _ _ _ (stored_val (wrun ex_two)) (fun _ => 0)); auto.
  - apply stored_readings; [exact ex_two_hits|]. intros v [<-|[<-|[<-|[<-|[]]]]]; vm_compute; tauto.
  - intros v Hv. exists (PInt 0%Z). split; [|split; [discriminate|reflexivity]].
    destruct Hv as [<-|[<-|[<-|[<-|[]]]]]; reflexivity.
Qed.
