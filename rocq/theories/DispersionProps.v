(** Property C69: dispersion. *)
From Coq Require Import Reals ZArith List Bool String Lia Lra.
From Verif Require Import Num WeightModel WeightProofs HitcoreModel HitcoreSpec HitcoreProofs
  PyLibModel PyLibProofs BunchModel BunchSpec BunchProofs HitPyModel HitPySpec HitPyProofs
  MomentModel BunchNumModel MomentSpec MomentProofs StatProofs CommonModel CommonSpec
  MomentProps EllipseModel EllipseSpec EllipseProofs TwissProofs.
Import ListNotations.
Open Scope string_scope.
Open Scope list_scope.
Open Scope R_scope.

Lemma usable_total (w : RWorld) b : usable w b -> total_weight w (b_hits b) <> 0.
Proof.
  intros (_ & _ & _ & H) E. rewrite E, Rabs_R0 in H. lra.
Qed.

Lemma dispersion_spec extra (w : RWorld) b (val : string -> nat -> R) v :
  usable w b -> readings extra w (b_hits b) [v; "energy"] val ->
  let V := covariance w (b_hits b) val in
  dispersion_of extra no_fixed w b v =
  if Req_EM_T (V "energy" "energy") 0 then inl MZeroDivision
  else inr (V v "energy" * average w (b_hits b) (val "energy") / V "energy" "energy").
Proof.
  intros U Hr V. unfold dispersion_of.
  rewrite (central_spec extra w b val U v "energy" Hr). cbn [bindE].
  rewrite (mean_of_spec extra w b val U "energy").
  2:{ eapply readings_sub; eauto. intros k [<-|[]]; simpl; tauto. }
  cbn [bindE].
  rewrite (central_spec extra w b val U "energy" "energy").
  2:{ eapply readings_sub; eauto. intros k [<-|[<-|[]]]; simpl; tauto. }
  cbn [bindE]. reflexivity.
Qed.

(** C69.  The dispersion of q is cov(q, E) <E> / var(E), and no other straight line through
    the particles in (E - <E>) / <E> fits q better (least weighted squares) than the one with the
    dispersion as slope. *)
Theorem C69_dispersion : forall extra (w : RWorld) b (val : string -> nat -> R) q,
  usable w b -> nonneg_weights w (b_hits b) -> readings extra w (b_hits b) [q; "energy"] val ->
  let hits := b_hits b in
  let E := average w hits (val "energy") in
  covariance w hits val "energy" "energy" <> 0 -> E <> 0 ->
  exists D, get_dispersion extra no_fixed w b q = inr D /\
    D = covariance w hits val q "energy" * E / covariance w hits val "energy" "energy" /\
    forall slope offset,
      average w hits (fun l => (val q l - (average w hits (val q) + D * ((val "energy" l - E) / E))) ^ 2) <=
      average w hits (fun l => (val q l - (offset + slope * ((val "energy" l - E) / E))) ^ 2).
Proof.
  intros extra w b val q U Hw Hr hits E HV HE. pose proof (usable_total w b U) as T. fold hits in T.
  unfold get_dispersion. rewrite (dispersion_spec extra w b val q U Hr). fold hits.
  destruct (Req_EM_T _ 0) as [Z|_]; [contradiction|]. fold E.
  set (V := covariance w hits val) in *.
  eexists. split; [reflexivity|]. split; [reflexivity|]. intros slope offset.
  set (D := V q "energy" * E / V "energy" "energy").
  set (Q := average w hits (val q)).
  assert (A : forall o s, average w hits (fun l => (val q l - (o + s * ((val "energy" l - E) / E))) ^ 2) =
    V q q + (Q - o) * (Q - o) - 2 * (s / E) * V q "energy" + (s / E) * (s / E) * V "energy" "energy").
  { intros o s.
    rewrite (average_ext w w hits _ (fun l =>
       deviation w hits val q l * deviation w hits val q l +
       ((2 * (Q - o)) * deviation w hits val q l +
       ((- 2 * (Q - o) * (s / E)) * deviation w hits val "energy" l +
       ((Q - o) * (Q - o) +
       ((- 2 * (s / E)) * (deviation w hits val q l * deviation w hits val "energy" l) +
       ((s / E) * (s / E)) * (deviation w hits val "energy" l * deviation w hits val "energy" l))))))); auto.
    2:{ intros l _. unfold deviation. fold Q E. field; auto. }
    rewrite !average_plus, !average_scale, !average_deviation, average_const by auto.
    unfold V, covariance. ring. }
  rewrite !A.
  assert (P : 0 < V "energy" "energy").
  { assert (0 <= V "energy" "energy").
    { apply average_nonneg; auto. intros l _. nra. }
    destruct (Rtotal_order 0 (V "energy" "energy")) as [|[|]]; auto; [symmetry in H0; contradiction|lra]. }
  assert (N1 : 0 <= (Q - offset) * (Q - offset)) by apply Rle_0_sqr.
  assert (N2 : 0 <= (slope / E - D / E) * (slope / E - D / E) * V "energy" "energy").
  { apply Rmult_le_pos; [apply Rle_0_sqr|lra]. }
  assert (K : V q "energy" = D / E * V "energy" "energy") by (unfold D; field; split; lra).
  replace (Q - Q) with 0 by ring. rewrite K.
  set (d := D / E) in *. set (s := slope / E) in *. clearbody d s V Q.
  replace (- 2 * s * (d * V "energy" "energy")) with (- (2 * s * d * V "energy" "energy")) by ring. nra.
Qed.
Print Assumptions C69_dispersion.

(** C69.  If every particle lies on q = q0 + d (E - E0) / <E>, the dispersion is d. *)
Theorem C69_exact_line : forall extra (w : RWorld) b (val : string -> nat -> R) q q0 E0 d,
  usable w b -> readings extra w (b_hits b) [q; "energy"] val ->
  let E := average w (b_hits b) (val "energy") in
  covariance w (b_hits b) val "energy" "energy" <> 0 -> E <> 0 ->
  (forall l, In l (b_hits b) -> val q l = q0 + d * ((val "energy" l - E0) / E)) ->
  get_dispersion extra no_fixed w b q = inr d.
Proof.
  intros extra w b val q q0 E0 d U Hr E HV HE Hl. pose proof (usable_total w b U) as T.
  unfold get_dispersion. rewrite (dispersion_spec extra w b val q U Hr).
  destruct (Req_EM_T _ 0) as [Z|_]; [contradiction|]. fold E. f_equal.
  assert (Q : average w (b_hits b) (val q) = q0 + d * ((E - E0) / E)).
  { rewrite (average_ext w w _ _ (fun l => d / E * val "energy" l + (q0 - d / E * E0))); auto.
    - rewrite average_plus, average_scale, average_const by auto. fold E. field; auto.
    - intros l H. rewrite Hl by auto. field; auto. }
  assert (C : covariance w (b_hits b) val q "energy" = d / E * covariance w (b_hits b) val "energy" "energy").
  { unfold covariance at 1. unfold covariance. rewrite <- average_scale. apply average_ext; auto.
    intros l H. unfold deviation. rewrite Q. fold E. rewrite Hl by auto. field; auto. }
  rewrite C. field; auto.
Qed.
Print Assumptions C69_exact_line.

(** C69.  Equal energies: ZeroDivisionError. *)
Theorem C69_monochromatic : forall extra (w : RWorld) b (val : string -> nat -> R) q,
  usable w b -> readings extra w (b_hits b) [q; "energy"] val ->
  covariance w (b_hits b) val "energy" "energy" = 0 ->
  get_dispersion extra no_fixed w b q = inl MZeroDivision.
Proof.
  intros extra w b val q U Hr HV. unfold get_dispersion.
  rewrite (dispersion_spec extra w b val q U Hr). destruct (Req_EM_T _ 0); [reflexivity|contradiction].
Qed.
Print Assumptions C69_monochromatic.

(** C69.  The dispersion prime of an axis is the dispersion of its momentum (or its slope, if
    geometric is given as true); other names raise. *)
Theorem C69_prime : forall extra (w : RWorld) b (val : string -> nat -> R) a geometric,
  (forall m, In (a, m) (conjugates geometric) ->
     usable w b -> readings extra w (b_hits b) [m; "energy"] val ->
     let V := covariance w (b_hits b) val in V "energy" "energy" <> 0 ->
     get_dispersion_prime extra no_fixed w b a geometric =
     inr (V m "energy" * average w (b_hits b) (val "energy") / V "energy" "energy")) /\
  ((forall m, ~ In (a, m) (conjugates geometric)) ->
     get_dispersion_prime extra no_fixed w b a geometric = inl MOther).
Proof.
  intros extra w b val a geo. split.
  - intros m Hm U Hr V HV. apply momentum_variable_in in Hm. unfold get_dispersion_prime. rewrite Hm.
    rewrite (dispersion_spec extra w b val m U Hr). destruct (Req_EM_T _ 0); [contradiction|reflexivity].
  - intros H. unfold get_dispersion_prime. destruct (momentum_variable a geo) as [m|] eqn:E; auto.
    apply momentum_variable_in in E. destruct (H m E).
Qed.
Print Assumptions C69_prime.

Lemma rsquared_spec extra (w : RWorld) b (val : string -> nat -> R) :
  usable w b -> readings extra w (b_hits b) ["x"; "y"; "r_squared"; "energy"] val ->
  (forall l, In l (b_hits b) -> val "r_squared" l = val "x" l * val "x" l + val "y" l * val "y" l) ->
  let V := covariance w (b_hits b) val in
  let A := fun v => average w (b_hits b) (val v) in
  V "energy" "energy" <> 0 ->
  get_dispersion_rsquared extra no_fixed w b =
  inr ((average w (b_hits b) (fun l => val "r_squared" l * val "energy" l)
        - (V "x" "x" + V "y" "y") * A "energy") * A "energy" / V "energy" "energy").
Proof.
  intros U Hr Hq V A HV. unfold get_dispersion_rsquared.
  rewrite (about_spec extra w b val U "r_squared" "energy" _ (fun _ => 0)).
  2:{ eapply readings_sub; eauto. intros v [<-|[<-|[]]]; simpl; tauto. }
  2:{ eexists. split; [reflexivity|]. split; [discriminate|reflexivity]. }
  2:{ eexists. split; [reflexivity|]. split; [discriminate|reflexivity]. }
  cbn [bindE].
  rewrite (central_spec extra w b val U "x" "x").
  2:{ eapply readings_sub; eauto. intros v [<-|[<-|[]]]; simpl; tauto. }
  cbn [bindE].
  rewrite (central_spec extra w b val U "y" "y").
  2:{ eapply readings_sub; eauto. intros v [<-|[<-|[]]]; simpl; tauto. }
  cbn [bindE].
  rewrite (mean_of_spec extra w b val U "energy").
  2:{ eapply readings_sub; eauto. intros v [<-|[]]; simpl; tauto. }
  cbn [bindE].
  rewrite (central_spec extra w b val U "energy" "energy").
  2:{ eapply readings_sub; eauto. intros v [<-|[<-|[]]]; simpl; tauto. }
  cbn [bindE]. unfold divE. fold V. destruct (Req_EM_T _ 0); [contradiction|].
  f_equal. unfold A. f_equal. f_equal. f_equal. apply average_ext; auto. intros l _. ring.
Qed.

(** C69.  Documented: (<r2 E> - <r2> <E>) <E> / var(E) with raw moments.  What is returned is
    more by (<x>^2 + <y>^2) <E>^2 / var(E): right for a bunch centred on the axis only. *)
Theorem C69_rsquared : forall extra (w : RWorld) b (val : string -> nat -> R),
  usable w b -> readings extra w (b_hits b) ["x"; "y"; "r_squared"; "energy"] val ->
  (forall l, In l (b_hits b) -> val "r_squared" l = val "x" l * val "x" l + val "y" l * val "y" l) ->
  let A := average w (b_hits b) in
  let E := A (val "energy") in
  let var := covariance w (b_hits b) val "energy" "energy" in
  let documented := (A (fun l => val "r_squared" l * val "energy" l) - A (val "r_squared") * E) * E / var in
  var <> 0 ->
  exists D, get_dispersion_rsquared extra no_fixed w b = inr D /\
    D = documented + (A (val "x") ^ 2 + A (val "y") ^ 2) * E ^ 2 / var.
Proof.
  intros extra w b val U Hr Hq A E var documented HV. pose proof (usable_total w b U) as T.
  eexists. split; [apply (rsquared_spec extra w b val U Hr Hq HV)|].
  assert (M : forall v, A (fun l => val v l * val v l) =
     covariance w (b_hits b) val v v + A (val v) * A (val v)).
  { intros v. unfold A.
    rewrite (average_ext w w _ _ (fun l => deviation w (b_hits b) val v l * deviation w (b_hits b) val v l +
      ((2 * average w (b_hits b) (val v)) * deviation w (b_hits b) val v l +
       average w (b_hits b) (val v) * average w (b_hits b) (val v)))); auto.
    - rewrite !average_plus, average_scale, average_deviation, average_const by auto. unfold covariance. ring.
    - intros l _. unfold deviation. ring. }
  assert (R2 : A (val "r_squared") = covariance w (b_hits b) val "x" "x" + A (val "x") * A (val "x") +
     (covariance w (b_hits b) val "y" "y" + A (val "y") * A (val "y"))).
  { rewrite <- !M. unfold A. rewrite <- average_plus. apply average_ext; auto. }
  unfold documented, var, E. fold A. rewrite R2. fold E var. field; auto.
Qed.
Print Assumptions C69_rsquared.

Theorem C69_rsquared_refuted : forall extra (w : RWorld) b (val : string -> nat -> R),
  usable w b -> readings extra w (b_hits b) ["x"; "y"; "r_squared"; "energy"] val ->
  (forall l, In l (b_hits b) -> val "r_squared" l = val "x" l * val "x" l + val "y" l * val "y" l) ->
  let A := average w (b_hits b) in
  let E := A (val "energy") in
  let var := covariance w (b_hits b) val "energy" "energy" in
  let documented := (A (fun l => val "r_squared" l * val "energy" l) - A (val "r_squared") * E) * E / var in
  var <> 0 -> E <> 0 -> (A (val "x") <> 0 \/ A (val "y") <> 0) ->
  get_dispersion_rsquared extra no_fixed w b <> inr documented.
Proof.
  intros extra w b val U Hr Hq A E var documented HV HE HA H.
  destruct (C69_rsquared extra w b val U Hr Hq HV) as (D & H1 & H2). rewrite H in H1.
  assert (DD : D = documented) by congruence. rewrite DD in H2.
  assert (Z : (A (val "x") ^ 2 + A (val "y") ^ 2) * E ^ 2 / var = 0).
  { fold A E var in H2. fold documented in H2. lra. }
  apply Rmult_integral in Z. destruct Z as [Z|Z].
  - apply Rmult_integral in Z. destruct Z as [Z|Z].
    + destruct HA as [K|K]; apply K; nra.
    + apply HE. nra.
  - apply Rinv_neq_0_compat in HV. contradiction.
Qed.
Print Assumptions C69_rsquared_refuted.

(** Two hits at x = 1, 3 with energies 100, 300 (mean 200, variance 10000). *)
Definition ex_disp : list (WOp RNum) :=
  [ WNew; WNew; WSet 0 "x" (@PFloat RNum 1); WSet 1 "x" (@PFloat RNum 3);
    WSet 0 "energy" (@PFloat RNum 100); WSet 1 "energy" (@PFloat RNum 300) ].
Definition ex_disp_bunch : Bunch := append (append bunch_new 0) 1.

Example C69_example : let w := wrun ex_disp in let b := ex_disp_bunch in
  let val := fun v l => if String.eqb v "r_squared" then stored_val w "x" l * stored_val w "x" l + stored_val w "y" l * stored_val w "y" l
                        else stored_val w v l in
  let extra := fun _ _ v l => Some (@PFloat RNum (val v l)) in
  usable w b /\ nonneg_weights w (b_hits b) /\ readings extra w (b_hits b) ["x"; "y"; "r_squared"; "energy"] val /\
  average w (b_hits b) (val "energy") = 200 /\ average w (b_hits b) (val "x") = 2 /\
  covariance w (b_hits b) val "energy" "energy" = 10000 /\
  get_dispersion extra no_fixed w b "x" = inr 2.
Proof.
  intros w b val extra.
  assert (H : forall l, In l (b_hits b) -> is_hit w l) by (intros l [<-|[<-|[]]]; discriminate).
  assert (W : forall l, In l (b_hits b) -> wt w l = 1).
  { intros l [<-|[<-|[]]]; unfold wt.
    - replace (hit_get w 0 "weight") with (Some (@PFloat RNum (1 * 1))) by reflexivity. simpl. lra.
    - replace (hit_get w 1 "weight") with (Some (@PFloat RNum (1 * 1))) by reflexivity. simpl. lra. }
  assert (T : total_weight w (b_hits b) = 2).
  { unfold total_weight. rewrite (rsum_ext (wt w) (fun _ => 1)) by auto.
    cbn [rsum b ex_disp_bunch append b_hits bunch_new app]. ring. }
  assert (Av : forall f, average w (b_hits b) f = (f 0%nat + f 1%nat) / 2).
  { intros f. unfold average. rewrite T.
    rewrite (rsum_ext (fun l => wt w l * f l) f) by (intros; rewrite W by auto; ring).
    cbn [rsum b ex_disp_bunch append b_hits bunch_new app]. field. }
  assert (U : usable w b).
  { split; [reflexivity|]. split; [reflexivity|]. split; [exact H|]. rewrite T, Rabs_right; lra. }
  assert (Hr : readings extra w (b_hits b) ["x"; "y"; "r_squared"; "energy"] val).
  { assert (Sx := stored_readings extra w (b_hits b) ["x"; "y"; "energy"] H).
    assert (St : forall v, In v ["x"; "y"; "energy"] -> In v stored_floats)
      by (intros v [<-|[<-|[<-|[]]]]; vm_compute; tauto).
    specialize (Sx St). intros v l Hv Hl. destruct Hv as [<-|[<-|[<-|[<-|[]]]]].
    - apply (Sx "x" l); simpl; auto.
    - apply (Sx "y" l); simpl; auto.
    - unfold val. destruct Hl as [<-|[<-|[]]]; eexists; (split; [reflexivity|split; [discriminate|reflexivity]]).
    - apply (Sx "energy" l); simpl; auto. }
  assert (V1 : val "energy" 0%nat = 100) by reflexivity.
  assert (V2 : val "energy" 1%nat = 300) by reflexivity.
  assert (V3 : val "x" 0%nat = 1) by reflexivity.
  assert (V4 : val "x" 1%nat = 3) by reflexivity.
  assert (E : average w (b_hits b) (val "energy") = 200) by (rewrite Av, V1, V2; lra).
  assert (C : covariance w (b_hits b) val "energy" "energy" = 10000).
  { unfold covariance, deviation. rewrite E, Av, V1, V2. lra. }
  split; [exact U|]. split; [intros l Hl; rewrite W by auto; lra|]. split; [exact Hr|].
  split; [exact E|]. split; [rewrite Av, V3, V4; lra|]. split; [exact C|].
  apply (C69_exact_line extra w b val "x" 2 200 2); auto.
  - eapply readings_sub; eauto. intros v [<-|[<-|[]]]; simpl; tauto.
  - rewrite C. lra.
  - rewrite E. lra.
  - rewrite E. intros l [<-|[<-|[]]]; rewrite ?V1, ?V2, ?V3, ?V4; lra.
Qed.
