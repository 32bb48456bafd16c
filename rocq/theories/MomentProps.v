(** Properties C19 (n sigma), C21 - C24: statistics of bunches. *)
From Coq Require Import Reals ZArith QArith List Bool String Permutation Lia Lra.
From Verif Require Import Num WeightModel HitcoreModel HitcoreSpec HitcoreProofs
  PyLibModel PyLibProofs BunchModel BunchSpec BunchProofs BunchProps HitPyModel HitPySpec
  HitPyProofs MomentModel BunchNumModel MomentSpec MomentProofs StatProofs.
Import ListNotations.
Open Scope string_scope.
Open Scope list_scope.
Open Scope R_scope.

(** Two hits, x = 4 and x = -4, y = 1 and y = 3; both of weight 1. *)
Definition ex_two : list (WOp RNum) :=
  [ WNew; WNew; WSet 0 "x" (@PFloat RNum 4); WSet 1 "x" (@PFloat RNum (-4));
    WSet 0 "y" (@PFloat RNum 1); WSet 1 "y" (@PFloat RNum 3);
    WSet 0 "particle_number" (PInt 1); WSet 1 "particle_number" (PInt 2) ].
Definition ex_bunch : Bunch := append (append bunch_new 0) 1.

Lemma ex_two_x0 : hit_get (wrun ex_two) 0 "x" = Some (@PFloat RNum 4). Proof. reflexivity. Qed.
Lemma ex_two_x1 : hit_get (wrun ex_two) 1 "x" = Some (@PFloat RNum (-4)). Proof. reflexivity. Qed.
Lemma ex_two_y0 : hit_get (wrun ex_two) 0 "y" = Some (@PFloat RNum 1). Proof. reflexivity. Qed.
Lemma ex_two_y1 : hit_get (wrun ex_two) 1 "y" = Some (@PFloat RNum 3). Proof. reflexivity. Qed.
Lemma ex_two_w0 : wt (wrun ex_two) 0 = 1.
Proof. unfold wt. replace (hit_get (wrun ex_two) 0 "weight") with (Some (@PFloat RNum (1 * 1))) by reflexivity. simpl. lra. Qed.
Lemma ex_two_w1 : wt (wrun ex_two) 1 = 1.
Proof. unfold wt. replace (hit_get (wrun ex_two) 1 "weight") with (Some (@PFloat RNum (1 * 1))) by reflexivity. simpl. lra. Qed.

Lemma ex_two_hits : forall l, In l (b_hits ex_bunch) -> is_hit (wrun ex_two) l.
Proof. intros l [<-|[<-|[]]]; discriminate. Qed.

Lemma ex_two_total : total_weight (wrun ex_two) (b_hits ex_bunch) = 2.
Proof. cbn [total_weight rsum ex_bunch append b_hits bunch_new app]. unfold total_weight. cbn [rsum]. rewrite ex_two_w0, ex_two_w1. lra. Qed.

Lemma ex_two_weight : has_weight (wrun ex_two) (b_hits ex_bunch).
Proof.
  split; [exact ex_two_hits|]. rewrite ex_two_total. rewrite Rabs_right by lra. lra.
Qed.

Lemma ex_two_average f : average (wrun ex_two) (b_hits ex_bunch) f = (f 0%nat + f 1%nat) / 2.
Proof.
  unfold average. rewrite ex_two_total.
  cbn [rsum ex_bunch append b_hits bunch_new app]. rewrite ex_two_w0, ex_two_w1.
  apply (f_equal (fun x => x / 2)). lra.
Qed.

Lemma ex_two_readings extra : readings extra (wrun ex_two) (b_hits ex_bunch) ["x"; "y"] (stored_val (wrun ex_two)).
Proof.
  apply stored_readings; [exact ex_two_hits|]. intros v [<-|[<-|[]]]; vm_compute; tauto.
Qed.

(** ---------------------------------------------------------------- C21 *)

(** C21.  The mean of a bunch is the weighted average of its hits, for all variables a
    hit can return (stored, weight, derived), in any number and with repetitions. *)
Theorem C21_mean_is_average :
  forall extra (p : list (WOp RNum)) (b : Bunch) (vars : list string) (val : string -> nat -> R),
    never_switches p -> in_step b -> has_weight (wrun p) (b_hits b) ->
    readings extra (wrun p) (b_hits b) vars val ->
    exists d, mean extra no_fixed (wrun p) b vars = inr d /\
      (forall v, In v vars -> dict_float d v (average (wrun p) (b_hits b) (val v))) /\
      (forall v, assoc d v <> None -> In v vars).
Proof. intros. apply mean_spec; auto. apply never_switches_cur; auto. Qed.
Print Assumptions C21_mean_is_average.

(** C21.  A moment about given values is the weighted average of the product of the
    deviations. *)
Theorem C21_moment_is_average :
  forall extra (p : list (WOp RNum)) (b : Bunch) (vars : list string) d
         (val : string -> nat -> R) (m : string -> R),
    never_switches p -> in_step b -> has_weight (wrun p) (b_hits b) ->
    readings extra (wrun p) (b_hits b) vars val ->
    d <> [] -> (forall v, In v vars -> dict_has d v (m v)) ->
    moment extra no_fixed (wrun p) b vars d =
    inr (average (wrun p) (b_hits b) (fun l => rprod (fun v => val v l - m v) vars)).
Proof. intros. apply moment_spec; auto. apply never_switches_cur; auto. Qed.
Print Assumptions C21_moment_is_average.

(** C21.  Without mean values the moment is about the bunch mean. *)
Theorem C21_central_moment_is_average :
  forall extra (p : list (WOp RNum)) (b : Bunch) (vars : list string) (val : string -> nat -> R),
    never_switches p -> in_step b -> has_weight (wrun p) (b_hits b) ->
    readings extra (wrun p) (b_hits b) vars val ->
    moment extra no_fixed (wrun p) b vars [] =
    inr (average (wrun p) (b_hits b)
      (fun l => rprod (fun v => val v l - average (wrun p) (b_hits b) (val v)) vars)).
Proof. intros. apply moment_central_spec; auto. apply never_switches_cur; auto. Qed.
Print Assumptions C21_central_moment_is_average.

(** C21.  Moments do not depend on the order of the hits. *)
Theorem C21_order_irrelevant :
  forall extra (p : list (WOp RNum)) (b b' : Bunch) (vars : list string) (val : string -> nat -> R),
    never_switches p -> in_step b -> in_step b' -> Permutation (b_hits b) (b_hits b') ->
    has_weight (wrun p) (b_hits b) ->
    readings extra (wrun p) (b_hits b) vars val -> readings extra (wrun p) (b_hits b') vars val ->
    moment extra no_fixed (wrun p) b' vars [] = moment extra no_fixed (wrun p) b vars [].
Proof.
  intros extra p b b' vars val Hn Hb Hb' Hp Hw Hr Hr'.
  assert (A : forall f, average (wrun p) (b_hits b') f = average (wrun p) (b_hits b) f).
  { intros f. unfold average, total_weight.
    rewrite <- !(rsum_perm _ _ _ Hp). reflexivity. }
  assert (Hw' : has_weight (wrun p) (b_hits b')).
  { destruct Hw as [W1 W2]. split.
    - intros l Hl. apply W1. eapply Permutation_in; [apply Permutation_sym; eauto|auto].
    - unfold total_weight in *. rewrite <- (rsum_perm _ _ _ Hp). auto. }
  rewrite !(moment_central_spec extra _ _ vars val) by (auto; apply never_switches_cur; auto).
  rewrite A. apply f_equal. apply average_ext; auto. intros l Hl. apply rprod_ext. intros v Hv. rewrite A. reflexivity.
Qed.
Print Assumptions C21_order_irrelevant.

(** C21.  Hits of zero weight do not matter: leaving out any of them changes no moment. *)
Theorem C21_zero_weight_irrelevant :
  forall extra (p : list (WOp RNum)) (b b' : Bunch) (keep : nat -> bool) (vars : list string)
         (val : string -> nat -> R),
    never_switches p -> in_step b -> in_step b' -> b_hits b' = filter keep (b_hits b) ->
    (forall l, In l (b_hits b) -> keep l = false -> wt (wrun p) l = 0) ->
    has_weight (wrun p) (b_hits b) ->
    readings extra (wrun p) (b_hits b) vars val -> readings extra (wrun p) (b_hits b') vars val ->
    moment extra no_fixed (wrun p) b' vars [] = moment extra no_fixed (wrun p) b vars [].
Proof.
  intros extra p b b' keep vars val Hn Hb Hb' Hp Hz Hw Hr Hr'.
  assert (T : total_weight (wrun p) (b_hits b') = total_weight (wrun p) (b_hits b)).
  { unfold total_weight. rewrite Hp. apply rsum_filter0. auto. }
  assert (A : forall f, average (wrun p) (b_hits b') f = average (wrun p) (b_hits b) f).
  { intros f. unfold average. rewrite T. apply (f_equal (fun x => x / total_weight (wrun p) (b_hits b))).
    rewrite Hp. apply rsum_filter0. intros l Hl Hk. rewrite (Hz l Hl Hk). lra. }
  assert (Hw' : has_weight (wrun p) (b_hits b')).
  { destruct Hw as [W1 W2]. split.
    - intros l Hl. apply W1. rewrite Hp in Hl. apply filter_In in Hl. tauto.
    - rewrite T. auto. }
  rewrite !(moment_central_spec extra _ _ vars val) by (auto; apply never_switches_cur; auto).
  rewrite A. apply f_equal. apply average_ext; auto. intros l Hl. apply rprod_ext. intros v Hv. rewrite A. reflexivity.
Qed.
Print Assumptions C21_zero_weight_irrelevant.

(** C21.  Scaling all weights by a constant changes no moment: two states with the same
    values and proportional weights. *)
Theorem C21_weight_scale_irrelevant :
  forall extra (p p' : list (WOp RNum)) (b : Bunch) (c : R) (vars : list string)
         (val : string -> nat -> R),
    never_switches p -> never_switches p' -> in_step b ->
    has_weight (wrun p) (b_hits b) -> has_weight (wrun p') (b_hits b) ->
    readings extra (wrun p) (b_hits b) vars val -> readings extra (wrun p') (b_hits b) vars val ->
    (forall l, In l (b_hits b) -> wt (wrun p') l = c * wt (wrun p) l) ->
    moment extra no_fixed (wrun p') b vars [] = moment extra no_fixed (wrun p) b vars [].
Proof.
  intros extra p p' b c vars val Hn Hn' Hb Hw Hw' Hr Hr' Hc.
  assert (T : total_weight (wrun p') (b_hits b) = c * total_weight (wrun p) (b_hits b)).
  { unfold total_weight. rewrite <- rsum_scale. apply rsum_ext. auto. }
  pose proof (has_weight_nz _ _ Hw) as N1. pose proof (has_weight_nz _ _ Hw') as N2.
  assert (Nc : c <> 0) by (intros ->; rewrite Rmult_0_l in T; auto).
  assert (A : forall f, average (wrun p') (b_hits b) f = average (wrun p) (b_hits b) f).
  { intros f. unfold average. rewrite T.
    rewrite (rsum_ext _ (fun l => c * (wt (wrun p) l * f l))) by (intros l Hl; rewrite Hc by auto; lra).
    rewrite rsum_scale. field. auto. }
  rewrite !(moment_central_spec extra _ _ vars val) by (auto; apply never_switches_cur; auto).
  rewrite A. apply f_equal. apply average_ext; auto. intros l Hl. apply rprod_ext. intros v Hv. rewrite A. reflexivity.
Qed.
Print Assumptions C21_weight_scale_irrelevant.

(** C21.  Scaling coordinates scales the moment: two states with the same weights in which
    every variable v is a(v) times larger. *)
Theorem C21_coordinate_scale :
  forall extra (p p' : list (WOp RNum)) (b : Bunch) (a : string -> R) (vars : list string)
         (val val' : string -> nat -> R),
    never_switches p -> never_switches p' -> in_step b ->
    has_weight (wrun p) (b_hits b) -> has_weight (wrun p') (b_hits b) ->
    readings extra (wrun p) (b_hits b) vars val -> readings extra (wrun p') (b_hits b) vars val' ->
    (forall l, In l (b_hits b) -> wt (wrun p') l = wt (wrun p) l) ->
    (forall v l, In v vars -> In l (b_hits b) -> val' v l = a v * val v l) ->
    exists x, moment extra no_fixed (wrun p) b vars [] = inr x /\
      moment extra no_fixed (wrun p') b vars [] = inr (rprod a vars * x).
Proof.
  intros extra p p' b a vars val val' Hn Hn' Hb Hw Hw' Hr Hr' Hc Ha.
  rewrite (moment_central_spec extra _ _ vars val) by (auto; apply never_switches_cur; auto).
  rewrite (moment_central_spec extra _ _ vars val') by (auto; apply never_switches_cur; auto).
  eexists. split; [reflexivity|]. apply f_equal. rewrite <- average_scale. apply average_ext; auto.
  intros l Hl. 
  assert (G : forall vs, (forall v, In v vs -> In v vars) ->
    rprod (fun v => val' v l - average (wrun p') (b_hits b) (val' v)) vs =
    rprod a vs * rprod (fun v => val v l - average (wrun p) (b_hits b) (val v)) vs).
  { induction vs as [|v vs IH]; intros Hi; cbn [rprod]; [lra|].
    rewrite IH by (intros; apply Hi; right; auto).
    assert (Hv : In v vars) by (apply Hi; left; auto).
    rewrite (average_ext (wrun p) (wrun p') (b_hits b) (val' v) (fun l => a v * val v l)) by auto.
    rewrite average_scale, (Ha v l) by auto. ring. }
  apply G; auto.
Qed.
Print Assumptions C21_coordinate_scale.

(** C21.  Bunch.translate adds the translation to every mean and changes no central
    moment, of any order; hits outside the bunch are untouched.  The hits of the bunch
    are distinct objects. *)
Theorem C21_translation :
  forall extra (p : list (WOp RNum)) (b : Bunch) (d : list (string * R)) (vars : list string),
    never_switches p -> in_step b -> NoDup (b_hits b) -> has_weight (wrun p) (b_hits b) ->
    float_dict d -> ~ In "local_weight" (map fst d) -> (forall v, In v vars -> In v stored_floats) ->
    exists w', bunch_translate (wrun p) b (floats d) "" = (w', None) /\
      (exists m m', mean extra no_fixed (wrun p) b vars = inr m /\
         mean extra no_fixed w' b vars = inr m' /\
         forall v, In v vars -> exists x, dict_float m v x /\ dict_float m' v (x + entry d v)) /\
      (exists x, moment extra no_fixed (wrun p) b vars [] = inr x /\
         moment extra no_fixed w' b vars [] = inr x) /\
      (forall l, ~ In l (b_hits b) -> forall n, hit_get w' l n = hit_get (wrun p) l n).
Proof.
  intros extra p b d vars Hn Hb Hnd Hw Hd Hl Hv.
  pose proof (never_switches_cur p Hn) as Hc.
  destruct (bunch_translate_spec (wrun p) b d Hnd (proj1 Hw) Hd Hl) as (w' & W1 & W2 & W3 & W4 & W5 & W6).
  exists w'. split; auto.
  assert (Hw' : has_weight w' (b_hits b)).
  { split; auto. rewrite (total_weight_ext (wrun p) w') by auto. apply Hw. }
  assert (R1 : readings extra (wrun p) (b_hits b) vars (stored_val (wrun p))) by (apply stored_readings; auto; apply Hw).
  assert (R2 : readings extra w' (b_hits b) vars (stored_val w')) by (apply stored_readings; auto).
  assert (A : forall v, In v vars -> average w' (b_hits b) (stored_val w' v) =
                        average (wrun p) (b_hits b) (stored_val (wrun p) v) + entry d v).
  { intros v Iv. rewrite (average_ext (wrun p) w' (b_hits b) _ (fun l => stored_val (wrun p) v l + entry d v)) by auto.
    rewrite average_plus, average_const by (apply has_weight_nz; auto). reflexivity. }
  split; [|split; auto].
  - destruct (mean_spec extra (wrun p) b vars _ Hc Hb Hw R1) as (m & M1 & M2 & _).
    assert (Hc' : w_cur w' = 0%nat) by (rewrite W2; auto).
    destruct (mean_spec extra w' b vars _ Hc' Hb Hw' R2) as (m' & M1' & M2' & _).
    exists m, m'. split; auto. split; auto. intros v Iv. eexists. split; [apply M2; auto|].
    unfold dict_float. rewrite M2', A by auto. reflexivity.
  - rewrite (moment_central_spec extra (wrun p) b vars _ Hc Hb Hw R1).
    rewrite (moment_central_spec extra w' b vars (stored_val w')) by (auto; congruence).
    eexists. split; [reflexivity|]. apply f_equal. apply average_ext; auto.
    intros l Il. apply rprod_ext. intros v Iv. rewrite A, W6 by auto. ring.
Qed.
Print Assumptions C21_translation.

(** The example bunch: mean of x 0, of y 2; <x y> = -4. *)
Example C21_case :
  never_switches ex_two /\ in_step ex_bunch /\ NoDup (b_hits ex_bunch) /\
  has_weight (wrun ex_two) (b_hits ex_bunch) /\
  float_dict [("x", 1); ("y", 2)] /\ ~ In "local_weight" (map fst [("x", 1); ("y", 2)]) /\
  moment no_extra no_fixed (wrun ex_two) ex_bunch ["x"; "y"] [] = inr (-4).
Proof.
  split; [repeat constructor|]. split; [reflexivity|].
  split; [repeat constructor; simpl; intuition discriminate|]. split; [exact ex_two_weight|].
  split.
  { split; [repeat constructor; simpl; intuition discriminate|].
    intros k [<-|[<-|[]]]; vm_compute; tauto. }
  split; [simpl; intuition discriminate|].
  rewrite (moment_central_spec no_extra _ _ ["x"; "y"] (stored_val (wrun ex_two)));
    [|reflexivity|reflexivity|exact ex_two_weight|apply ex_two_readings].
  apply f_equal. rewrite ex_two_average. cbn [rprod]. rewrite !ex_two_average.
  unfold stored_val. rewrite ex_two_x0, ex_two_x1, ex_two_y0, ex_two_y1. cbn [real_of]. field.
Qed.

(** ---------------------------------------------------------------- C22 *)

(** C22.  For every bunch, variables and complete dict of floats for which the C++ core
    answers, the Python fall back answers the same number. *)
Theorem C22_paths_agree :
  forall extra (p : list (WOp RNum)) (b : Bunch) (vars : list string)
         (d : list (string * PyVal RNum)) (fd : list (string * Num.num RNum))
         (val : string -> nat -> R) (m : string -> R) (x : R),
    never_switches p -> in_step b -> (forall l, In l (b_hits b) -> is_hit (wrun p) l) ->
    readings extra (wrun p) (b_hits b) vars val ->
    (forall v, In v vars -> dict_has d v (m v)) ->
    float_map d = Some fd -> core_moment (wrun p) (b_core b) vars fd = Some x ->
    py_moment extra (wrun p) b vars d = inr x.
Proof.
  intros extra p b vars d fd val m x Hn Hb Hh Hr Hd Hf Hx.
  rewrite (py_moment_spec extra (wrun p) b vars d val m) by auto. apply f_equal. symmetry.
  eapply core_moment_spec; eauto; [apply never_switches_cur; auto|].
  intros v Hv. eapply float_map_get; eauto.
Qed.
Print Assumptions C22_paths_agree.

(** C22.  A total weight of absolute value below 1e-9 raises ZeroDivisionError, in moment
    and in mean. *)
Theorem C22_zero_weight_raises :
  forall extra fx (w : World RNum) (b : Bunch) (vars : list string) (d : list (string * PyVal RNum)),
    (forall l, In l (b_hits b) -> is_hit w l) ->
    Rabs (total_weight w (b_hits b)) < 1 / 1000000000 ->
    moment extra fx w b vars d = inl MZeroDivision /\
    (forall v r, vars = v :: r -> assoc (f_means fx) v = None ->
       mean extra fx w b vars = inl MZeroDivision).
Proof.
  intros extra fx w b vars d Hh Hw.
  assert (E : nltb (nabs (bunch_weight w b)) weight_tol = true).
  { rewrite bunch_weight_total by auto.
    pose proof (nabs_Rabs (total_weight w (b_hits b))) as E. rewrite E.
    cbn [nltb RNum]. apply Rltb_lt. exact Hw. }
  split.
  - unfold moment. rewrite E. reflexivity.
  - intros v r -> Hv. unfold mean. cbn [mean_loop assoc]. rewrite Hv. unfold moment_about. rewrite E. reflexivity.
Qed.
Print Assumptions C22_zero_weight_raises.

(** C22.  A mean that is missing from a dict of floats counts as 0 as long as all
    variables are doubles of the core. *)
Theorem C22_missing_mean_is_zero :
  forall extra (p : list (WOp RNum)) (b : Bunch) (vars : list string) (d : list (string * R)),
    never_switches p -> in_step b -> has_weight (wrun p) (b_hits b) ->
    (forall v, In v vars -> In v stored_floats) -> d <> [] ->
    moment extra no_fixed (wrun p) b vars (float_values d) =
    inr (average (wrun p) (b_hits b)
          (fun l => rprod (fun v => stored_val (wrun p) v l - entry d v) vars)).
Proof.
  intros extra p b vars d Hn Hb Hw Hv Hd.
  unfold moment. rewrite weight_check by auto.
  replace (fixed_cov no_fixed vars) with (@None RNum) by reflexivity.
  transitivity (moment_about extra no_fixed (wrun p) b vars (float_values d)).
  { destruct d; [congruence|reflexivity]. }
  unfold moment_about. rewrite weight_check by auto.
  replace (fixed_cov no_fixed vars) with (@None RNum) by reflexivity.
  assert (Ef : float_map (float_values d) = Some d).
  { clear. unfold float_map, float_values. induction d as [|[k x] d IH]; auto.
    cbn [map all_some fst snd]. rewrite IH. reflexivity. }
  rewrite Ef.
  assert (Ek : exists fs, all_some (map (assoc get_dbl_map) vars) = Some fs).
  { clear - Hv. induction vars as [|v vars IH]; [eexists; reflexivity|].
    destruct IH as [fs IH]; [intros; apply Hv; right; auto|]. cbn [map all_some].
    destruct (stored_fname v (Hv v (or_introl eq_refl))) as [dv ->].
    replace (assoc get_dbl_map (fname dv)) with (Some (DStored dv)) by (destruct dv; reflexivity).
    rewrite IH. eexists; reflexivity. }
  destruct Ek as [fs Ek].
  destruct (core_moment (wrun p) (b_core b) vars (d : list (string * Num.num RNum))) as [x|] eqn:Ex.
  2:{ unfold core_moment in Ex. rewrite Ek in Ex. discriminate. }
  apply f_equal. eapply (core_moment_spec extra); eauto.
  - apply never_switches_cur; auto.
  - apply Hw.
  - apply stored_readings; auto. apply Hw.
  - intros v Iv. clear. unfold map_get. induction d as [|[k x] d IH]; cbn [assoc entry]; auto.
    destruct (String.eqb k v); auto.
Qed.
Print Assumptions C22_missing_mean_is_zero.

(** C22.  As soon as a mean is an int or a variable is not a double of the core, a missing
    mean is a KeyError instead. *)
Theorem C22_missing_mean_fallback_raises :
  forall extra (w : World RNum) (b : Bunch) (vars : list string) (d : list (string * PyVal RNum)),
    has_weight w (b_hits b) -> d <> [] ->
    (exists v, In v vars /\ assoc d v = None) ->
    (float_map d = None \/ exists v, In v vars /\ assoc get_dbl_map v = None) ->
    moment extra no_fixed w b vars d = inl MKeyError.
Proof.
  intros extra w b vars d Hw Hd (v & Iv & Ev) Hx. unfold moment. rewrite weight_check by auto.
  replace (fixed_cov no_fixed vars) with (@None RNum) by reflexivity.
  assert (P : py_moment extra w b vars d = inl MKeyError).
  { unfold py_moment.
    replace (all_some (map (fun v => match assoc d v with Some x => Some x | None => None end) vars))
      with (@None (list (PyVal RNum))); [reflexivity|].
    clear - Iv Ev. induction vars as [|u vars IH]; [destruct Iv|]. cbn [map all_some].
    destruct Iv as [->|Iv]; [rewrite Ev; reflexivity|]. rewrite <- (IH Iv).
    destruct (assoc d u); reflexivity. }
  destruct d as [|p0 d0]; [congruence|]. unfold moment_about. rewrite weight_check by auto.
  replace (fixed_cov no_fixed vars) with (@None RNum) by reflexivity.
  destruct Hx as [Hx|(u & Iu & Eu)].
  - rewrite Hx. exact P.
  - destruct (float_map (p0 :: d0)) as [fd|]; [|exact P].
    replace (core_moment w (b_core b) vars fd) with (@None RNum); [exact P|].
    unfold core_moment. replace (all_some (map (assoc get_dbl_map) vars)) with (@None (list DblKey)); auto.
    clear - Iu Eu. induction vars as [|k vars IH]; [destruct Iu|]. cbn [map all_some].
    destruct Iu as [->|Iu]; [rewrite Eu; reflexivity|]. rewrite <- (IH Iu). destruct (assoc get_dbl_map k); reflexivity.
Qed.
Print Assumptions C22_missing_mean_fallback_raises.

(** C22.  "Assume bunch mean if no value is specified" (documentation of moment) is
    refuted for partly specified dicts: <x x> is taken about 0 or raises, depending on
    whether the unrelated value given for y is a float or an int. *)
Theorem C22_missing_mean_is_bunch_mean_refuted :
  exists (p : list (WOp RNum)) (b : Bunch),
    never_switches p /\ in_step b /\ has_weight (wrun p) (b_hits b) /\
    moment no_extra no_fixed (wrun p) b ["y"; "y"] [] = inr 1 /\
    moment no_extra no_fixed (wrun p) b ["y"; "y"] [("x", PFloat (0 : RNum))] = inr 5 /\
    moment no_extra no_fixed (wrun p) b ["y"; "y"] [("x", PInt 0)] = inl MKeyError.
Proof.
  exists ex_two, ex_bunch. split; [repeat constructor|]. split; [reflexivity|]. split; [exact ex_two_weight|].
  split; [|split].
  - rewrite (moment_central_spec no_extra _ _ ["y"; "y"] (stored_val (wrun ex_two)));
      [|reflexivity|reflexivity|exact ex_two_weight|].
    2:{ intros v l [<-|[<-|[]]] Hl; apply ex_two_readings; simpl; auto. }
    apply f_equal. rewrite ex_two_average. cbn [rprod]. rewrite !ex_two_average.
    unfold stored_val. rewrite ex_two_y0, ex_two_y1. cbn [real_of]. field.
  - change [("x", PFloat (0 : RNum))] with (float_values [("x", 0)]).
    rewrite C22_missing_mean_is_zero; [|repeat constructor|reflexivity|exact ex_two_weight| |discriminate].
    2:{ intros v [<-|[<-|[]]]; vm_compute; tauto. }
    apply f_equal. rewrite ex_two_average. cbn [rprod entry String.eqb Ascii.eqb Bool.eqb].
    unfold stored_val. rewrite ex_two_y0, ex_two_y1. cbn [real_of]. field.
  - apply C22_missing_mean_fallback_raises; [exact ex_two_weight|discriminate| |left; reflexivity].
    exists "y". split; [simpl; auto|reflexivity].
Qed.
Print Assumptions C22_missing_mean_is_bunch_mean_refuted.

(** C22.  Without the condition on weight contexts the two paths disagree: after switching
    to a fresh context in which the second hit has weight 0, the core still sees weight 1
    (mean 3), the fall back sees 0 (mean 4). *)
Theorem C22_paths_agree_after_context_switch_refuted :
  exists (p : list (WOp QNum)) (b : Bunch) (x y : Q),
    in_step b /\ core_moment (wrun p) (b_core b) ["x"] [("x", 0%Q : QNum)] = Some x /\
    py_moment no_extra (wrun p) b ["x"] [("x", PFloat (0%Q : QNum))] = inr y /\
    Qeq x 3%Q /\ Qeq y 4%Q.
Proof.
  exists [ WNew; WNew; WSet 0 "x" (@PFloat QNum 4%Q); WSet 1 "x" (@PFloat QNum 2%Q);
           WSet 0 "particle_number" (PInt 1); WSet 1 "particle_number" (PInt 2);
           WCtx (SNew 0); WUse 0; WSet 1 "global_weight" (@PFloat QNum 0%Q) ],
    (append (append bunch_new 0) 1).
  eexists. eexists. split; [reflexivity|]. split; [vm_compute; reflexivity|].
  split; [vm_compute; reflexivity|]. split; vm_compute; reflexivity.
Qed.
Print Assumptions C22_paths_agree_after_context_switch_refuted.

(** C22.  After del bunch[1] (which raises) the mean is still that of both hits. *)
Theorem C22_mean_after_del_refuted :
  exists (p : list (WOp QNum)) (b : Bunch) (x : Q),
    never_switches p /\ in_step b /\ let b' := fst (delitem b 1) in
    b_hits b' = [0%nat] /\ hit_get (wrun p) 0 "x" = Some (PFloat (4%Q : QNum)) /\
    mean no_extra no_fixed (wrun p) b' ["x"] = inr [("x", PFloat (x : QNum))] /\ Qeq x 3%Q.
Proof.
  exists [ WNew; WNew; WSet 0 "x" (@PFloat QNum 4%Q); WSet 1 "x" (@PFloat QNum 2%Q);
           WSet 0 "particle_number" (PInt 1); WSet 1 "particle_number" (PInt 2) ],
    (append (append bunch_new 0) 1).
  eexists. split; [repeat constructor|]. split; [reflexivity|]. split; [reflexivity|].
  split; [reflexivity|]. split; vm_compute; reflexivity.
Qed.
Print Assumptions C22_mean_after_del_refuted.

(** ---------------------------------------------------------------- C23 *)

(** C23.  covariance_matrix about given origins (bunch means where none is given): a
    square matrix whose entries are the second moments, symmetric. *)
Theorem C23_entries_symmetric :
  forall extra (p : list (WOp RNum)) (b : Bunch) (vars : list string) d
         (val : string -> nat -> R) (m : string -> R),
    never_switches p -> in_step b -> has_weight (wrun p) (b_hits b) ->
    readings extra (wrun p) (b_hits b) vars val ->
    (forall v, In v vars -> dict_has d v (m v) \/
       (assoc d v = None /\ m v = average (wrun p) (b_hits b) (val v))) ->
    exists c, covariance_matrix extra no_fixed (wrun p) b vars d = inr c /\
      square (List.length vars) c /\
      (forall i j, (i < List.length vars)%nat -> (j < List.length vars)%nat ->
         ent c i j = ent c j i /\
         ent c i j = average (wrun p) (b_hits b) (fun l =>
           (val (nth i vars "") l - m (nth i vars "")) * (val (nth j vars "") l - m (nth j vars "")))).
Proof.
  intros extra p b vars d val m Hn Hb Hw Hr Hd.
  destruct (covariance_spec extra (wrun p) b vars val d m (never_switches_cur p Hn) Hb Hw Hr Hd) as (c & C1 & C2).
  exists c. split; auto.
  assert (E : forall i j, (i < List.length vars)%nat -> (j < List.length vars)%nat ->
    ent c i j = cov_entry (wrun p) (b_hits b) val m (nth i vars "") (nth j vars "")).
  { intros i j Hi Hj. rewrite C2. unfold ent.
    rewrite (nth_indep _ [] (map (fun j => cov_entry (wrun p) (b_hits b) val m (nth 0 vars "") (nth j vars "")) (seq 0 (List.length vars))))
      by (rewrite map_length, seq_length; auto).
    rewrite (map_nth (fun i => map (fun j => cov_entry (wrun p) (b_hits b) val m (nth i vars "") (nth j vars "")) (seq 0 (List.length vars)))).
    rewrite seq_nth by auto.
    rewrite (nth_indep _ 0 (cov_entry (wrun p) (b_hits b) val m (nth (0 + i) vars "") (nth 0 vars "")))
      by (rewrite map_length, seq_length; auto).
    rewrite (map_nth (fun j => cov_entry (wrun p) (b_hits b) val m (nth (0 + i) vars "") (nth j vars ""))).
    rewrite seq_nth by auto. reflexivity. }
  split.
  - rewrite C2. split; [rewrite map_length, seq_length; auto|].
    intros row Hrow. apply in_map_iff in Hrow. destruct Hrow as (i & <- & _). rewrite map_length, seq_length. auto.
  - intros i j Hi Hj. rewrite !E by auto. split; [|reflexivity].
    unfold cov_entry. apply average_ext; auto. intros; ring.
Qed.
Print Assumptions C23_entries_symmetric.

(** C23.  The entries are what moment returns for the pair of variables. *)
Theorem C23_entries_are_moments :
  forall extra (p : list (WOp RNum)) (b : Bunch) (vars : list string) (val : string -> nat -> R),
    never_switches p -> in_step b -> has_weight (wrun p) (b_hits b) ->
    readings extra (wrun p) (b_hits b) vars val ->
    exists c, covariance_matrix extra no_fixed (wrun p) b vars [] = inr c /\
      (forall i j, (i < List.length vars)%nat -> (j < List.length vars)%nat ->
         moment extra no_fixed (wrun p) b [nth i vars ""; nth j vars ""] [] = inr (ent c i j)).
Proof.
  intros extra p b vars val Hn Hb Hw Hr.
  destruct (C23_entries_symmetric extra p b vars [] val (fun v => average (wrun p) (b_hits b) (val v)))
    as (c & C1 & _ & C2); auto.
  exists c. split; auto. intros i j Hi Hj. rewrite (proj2 (C2 i j Hi Hj)).
  assert (Ii : In (nth i vars "") vars) by (apply nth_In; auto).
  assert (Ij : In (nth j vars "") vars) by (apply nth_In; auto).
  rewrite (moment_central_spec extra (wrun p) b _ val); auto.
  - apply f_equal. apply average_ext; auto. intros l _. cbn [rprod]. ring.
  - apply never_switches_cur; auto.
  - intros v l [<-|[<-|[]]] Hl; apply Hr; auto.
Qed.
Print Assumptions C23_entries_are_moments.

(** C23.  With weights >= 0 the matrix is positive semi-definite, about any origin and in
    any dimension. *)
Theorem C23_positive_semidefinite :
  forall extra (p : list (WOp RNum)) (b : Bunch) (vars : list string) d
         (val : string -> nat -> R) (m : string -> R) (a : nat -> R),
    never_switches p -> in_step b -> has_weight (wrun p) (b_hits b) ->
    nonneg_weights (wrun p) (b_hits b) ->
    readings extra (wrun p) (b_hits b) vars val ->
    (forall v, In v vars -> dict_has d v (m v) \/
       (assoc d v = None /\ m v = average (wrun p) (b_hits b) (val v))) ->
    exists c, covariance_matrix extra no_fixed (wrun p) b vars d = inr c /\
      let n := List.length vars in
      0 <= sum_n n (fun i => sum_n n (fun j => a i * a j * ent c i j)).
Proof.
  intros extra p b vars d val m a Hn Hb Hw Hp Hr Hd.
  destruct (C23_entries_symmetric extra p b vars d val m) as (c & C1 & _ & C2); auto.
  exists c. split; auto. cbv zeta.
  rewrite (sum_n_ext _ _ (fun i => sum_n (List.length vars) (fun j => a i * a j *
     average (wrun p) (b_hits b) (fun l => (val (nth i vars "") l - m (nth i vars "")) *
        (val (nth j vars "") l - m (nth j vars "")))))).
  - apply (quadratic_nonneg (wrun p) (b_hits b) (List.length vars) a
       (fun i l => val (nth i vars "") l - m (nth i vars ""))); auto. apply has_weight_nz; auto.
  - intros i Hi. apply sum_n_ext. intros j Hj. rewrite (proj2 (C2 i j Hi Hj)). reflexivity.
Qed.
Print Assumptions C23_positive_semidefinite.

(** C23.  Variances are >= 0, standard_deviation is a real number whose square is the
    variance, and cov(u,v)^2 <= var(u) var(v): the 2 by 2 determinant that
    get_emittance takes a root of is >= 0. *)
Theorem C23_variance_and_cauchy_schwarz :
  forall extra (p : list (WOp RNum)) (b : Bunch) (u v : string) (val : string -> nat -> R),
    never_switches p -> in_step b -> has_weight (wrun p) (b_hits b) ->
    nonneg_weights (wrun p) (b_hits b) ->
    readings extra (wrun p) (b_hits b) [u; v] val ->
    exists vu vv c s : R,
      moment extra no_fixed (wrun p) b [u; u] [] = inr vu /\
      moment extra no_fixed (wrun p) b [v; v] [] = inr vv /\
      moment extra no_fixed (wrun p) b [u; v] [] = inr c /\
      0 <= vu /\ 0 <= vv /\ c * c <= vu * vv /\
      standard_deviation extra no_fixed (wrun p) b u = inr (Some s) /\ 0 <= s /\ s * s = vu.
Proof.
  intros extra p b u v val Hn Hb Hw Hp Hr.
  pose proof (never_switches_cur p Hn) as Hc. pose proof (has_weight_nz _ _ Hw) as Hnz.
  set (av := fun k => average (wrun p) (b_hits b) (val k)).
  set (dev := fun k l => val k l - av k).
  assert (P : forall k k', In k [u; v] -> In k' [u; v] ->
     moment extra no_fixed (wrun p) b [k; k'] [] =
     inr (average (wrun p) (b_hits b) (fun l => dev k l * dev k' l))).
  { intros k k' Ik Ik'. rewrite (moment_central_spec extra (wrun p) b [k; k'] val Hc Hb Hw).
    - apply f_equal. apply average_ext; auto. intros l _. cbn [rprod]. unfold dev, av. ring.
    - intros x l [<-|[<-|[]]] Hl; apply Hr; auto. }
  assert (Hvu : 0 <= average (wrun p) (b_hits b) (fun l => dev u l * dev u l))
    by (apply average_nonneg; auto; intros; apply Rle_0_sqr).
  assert (Hvv : 0 <= average (wrun p) (b_hits b) (fun l => dev v l * dev v l))
    by (apply average_nonneg; auto; intros; apply Rle_0_sqr).
  do 3 eexists. exists (sqrt (average (wrun p) (b_hits b) (fun l => dev u l * dev u l))).
  split; [apply P; simpl; auto|]. split; [apply P; simpl; auto|]. split; [apply P; simpl; auto|].
  split; auto. split; auto. split; [apply cauchy_schwarz; auto|].
  split; [|split; [apply sqrt_pos|apply sqrt_sqrt; auto]].
  unfold standard_deviation, variance.
  destruct (mean_spec extra (wrun p) b [u] val Hc Hb Hw) as (d & -> & D1 & _).
  { intros x l [<-|[]] Hl. apply Hr; simpl; auto. }
  rewrite (moment_spec extra (wrun p) b [u; u] d val av Hc Hb Hw).
  - rewrite (average_ext (wrun p) (wrun p) (b_hits b) _ (fun l => dev u l * dev u l));
      [|auto|intros l _; cbn [rprod]; unfold dev; ring].
    unfold pow_half, py_sqrt. destruct (Rlt_dec _ 0); [lra|]. reflexivity.
  - intros x l [<-|[<-|[]]] Hl; apply Hr; simpl; auto.
  - intros E. subst d. specialize (D1 u (or_introl eq_refl)). discriminate.
  - intros x [<-|[<-|[]]]; exists (@PFloat RNum (av u)); (split; [apply D1; left; auto|split; [discriminate|reflexivity]]).
Qed.
Print Assumptions C23_variance_and_cauchy_schwarz.

Example C23_case :
  never_switches ex_two /\ in_step ex_bunch /\ has_weight (wrun ex_two) (b_hits ex_bunch) /\
  nonneg_weights (wrun ex_two) (b_hits ex_bunch) /\
  readings no_extra (wrun ex_two) (b_hits ex_bunch) ["x"; "y"] (stored_val (wrun ex_two)) /\
  moment no_extra no_fixed (wrun ex_two) ex_bunch ["x"; "y"] [] = inr (-4).
Proof.
  destruct C21_case as (A & B & _ & C & _ & _ & D). repeat (split; auto).
  - intros l [<-|[<-|[]]]; [rewrite ex_two_w0|rewrite ex_two_w1]; lra.
  - apply ex_two_readings.
Qed.

(** ---------------------------------------------------------------- C24 *)

(** C24.  index_by_power(max, n) for n >= 1 lists the n-tuples of powers with sum <= max,
    each once, the zero tuple first. *)
Theorem C24_index_by_power :
  forall (max n : Z) (l : list (list nat)),
    py_index_by_power max n = Some l ->
    NoDup l /\ hd_error l = Some (repeat 0%nat (Z.to_nat n)) /\
    forall t, In t l <-> List.length t = Z.to_nat n /\ (Z.of_nat (list_sum t) <= max)%Z.
Proof.
  intros max n l H. unfold py_index_by_power in H.
  destruct (Z.ltb_spec max 0); [discriminate|]. destruct (Z.ltb_spec n 1); [discriminate|].
  cbn [orb] in H. apply some_eq in H. subst l.
  destruct (index_by_power_spec (Z.to_nat max) (Z.to_nat n)) as [N I]; [lia|].
  split; auto. split; [reflexivity|]. intros t. rewrite I. split; intros [? ?]; split; auto; lia.
Qed.
Print Assumptions C24_index_by_power.

(** C24.  It answers exactly for max >= 0 and n >= 1. *)
Theorem C24_index_by_power_domain :
  forall max n, py_index_by_power max n <> None <-> (0 <= max /\ 1 <= n)%Z.
Proof.
  intros max n. unfold py_index_by_power.
  destruct (Z.ltb_spec max 0), (Z.ltb_spec n 1); cbn [orb]; split; try congruence; try lia; intros; discriminate.
Qed.
Print Assumptions C24_index_by_power_domain.

(** C24.  Position j of moment_tensor is the raw weighted moment of the powers listed at
    position j of index_by_power. *)
Theorem C24_moment_tensor :
  forall extra (p : list (WOp RNum)) (b : Bunch) (vars : list string) (max : Z)
         (val : string -> nat -> R),
    never_switches p -> in_step b -> (forall l, In l (b_hits b) -> is_hit (wrun p) l) ->
    1 / 1000000000000000 <= Rabs (total_weight (wrun p) (b_hits b)) ->
    vars <> [] -> (1 <= max)%Z -> (forall v, In v vars -> assoc get_dbl_map v <> None) ->
    readings extra (wrun p) (b_hits b) vars val ->
    exists r powers,
      py_moment_tensor (wrun p) (b_core b) vars max = Some r /\
      py_index_by_power max (Z.of_nat (List.length vars)) = Some powers /\
      List.length r = List.length powers /\
      forall j t, nth_error powers j = Some t ->
        nth_error r j = Some (average (wrun p) (b_hits b)
          (fun l => rprod (fun vp => val (fst vp) l ^ snd vp) (combine vars t))).
Proof.
  intros extra p b vars max val Hn Hb Hh Hw Hv Hm Hk Hr.
  unfold py_moment_tensor, py_index_by_power.
  destruct (Z.ltb_spec max 0); [lia|].
  assert (L : (1 <= List.length vars)%nat) by (destruct vars; [congruence|simpl; lia]).
  destruct (Z.ltb_spec (Z.of_nat (List.length vars)) 1); [lia|]. cbn [orb].
  rewrite (moment_tensor_spec extra (wrun p) b vars (Z.to_nat max) val (never_switches_cur p Hn) Hb Hh Hw Hv) by (auto; lia).
  rewrite Nat2Z.id. do 2 eexists. split; [reflexivity|]. split; [reflexivity|].
  split; [apply map_length|]. intros j t Ht. apply (map_nth_error (fun idx => average (wrun p) (b_hits b)
          (fun l => rprod (fun p => val (fst p) l ^ snd p) (combine vars idx))) j _ Ht).
Qed.
Print Assumptions C24_moment_tensor.

(** C24.  A bunch of zero weight, no variables or maximum power 0: the call fails. *)
Theorem C24_moment_tensor_fails :
  forall (p : list (WOp RNum)) (b : Bunch) (vars : list string) (max : Z),
    never_switches p -> in_step b -> (forall l, In l (b_hits b) -> is_hit (wrun p) l) ->
    Rabs (total_weight (wrun p) (b_hits b)) < 1 / 1000000000000000 \/ vars = [] \/ (max <= 0)%Z ->
    py_moment_tensor (wrun p) (b_core b) vars max = None.
Proof.
  intros p b vars max Hn Hb Hh H. unfold py_moment_tensor.
  destruct (Z.ltb_spec max 0); auto. unfold moment_tensor.
  destruct vars as [|v vars]; auto. destruct (Z.to_nat max) as [|mx] eqn:Em; auto.
  destruct H as [H|[H|H]]; [|discriminate|lia].
  destruct (all_some _) as [fs|]; auto.
  rewrite core_weight_total by (auto; apply never_switches_cur; auto).
  pose proof (nabs_Rabs (total_weight (wrun p) (b_hits b))) as E. rewrite E.
  replace (nltb _ _) with true; [reflexivity|]. symmetry. cbn [nltb RNum]. apply Rltb_lt. exact H.
Qed.
Print Assumptions C24_moment_tensor_fails.

Example C24_case :
  py_index_by_power 2 2 = Some [[0; 0]; [0; 1]; [0; 2]; [1; 1]; [1; 0]; [2; 0]]%nat /\
  1 / 1000000000000000 <= Rabs (total_weight (wrun ex_two) (b_hits ex_bunch)) /\
  readings no_extra (wrun ex_two) (b_hits ex_bunch) ["x"; "y"] (stored_val (wrun ex_two)).
Proof.
  split; [reflexivity|]. split; [|apply ex_two_readings].
  rewrite ex_two_total, Rabs_right; lra.
Qed.

(** ---------------------------------------------------------------- C19, n sigma *)

(** C19.  The threshold of cut with n sigma is n sqrt(var); the one of conditional_remove
    is n sqrt(sqrt(var)). *)
Theorem C19_nsigma_thresholds :
  forall extra (p : list (WOp RNum)) (b : Bunch) (v : string) (val : string -> nat -> R) (n : R),
    never_switches p -> in_step b -> has_weight (wrun p) (b_hits b) ->
    nonneg_weights (wrun p) (b_hits b) ->
    readings extra (wrun p) (b_hits b) [v] val ->
    exists var : R, moment extra no_fixed (wrun p) b [v; v] [] = inr var /\ 0 <= var /\
      cut_nsigma extra (wrun p) b v n = Some (n * sqrt var) /\
      remove_nsigma extra (wrun p) b v n = Some (n * sqrt (sqrt var)).
Proof.
  intros extra p b v val n Hn Hb Hw Hp Hr.
  destruct (C23_variance_and_cauchy_schwarz extra p b v v val Hn Hb Hw Hp) as (vu & vv & c & s & M1 & _ & _ & P & _ & _ & S1 & S2 & S3).
  { intros k l [<-|[<-|[]]] Hl; apply Hr; simpl; auto. }
  assert (Es : s = sqrt vu) by (rewrite <- S3; symmetry; apply sqrt_square; auto).
  exists vu. split; auto. split; auto.
  unfold cut_nsigma, remove_nsigma, standard_deviation in *.
  destruct (variance extra no_fixed (wrun p) b v) as [e|x]; [discriminate|].
  assert (Ex : pow_half x = Some s) by congruence. rewrite Ex. subst s. split; [reflexivity|].
  unfold pow_half, py_sqrt. destruct (Rlt_dec (sqrt vu) 0); [lra|]. reflexivity.
Qed.
Print Assumptions C19_nsigma_thresholds.

(** operator.gt over the reals. *)
Definition rgt_cmp (v : PyVal RNum) (c : R) : CmpRes := CBool (Rltb c (real_of v)).

(** C19.  "conditional_remove and cut with n sigma select the same hits" is refuted: with
    x = 4 and x = -4 the standard deviation is 4; cut takes 4 > 4 for the first hit,
    conditional_remove takes 4 > 2. *)
Theorem C19_nsigma_same_selection_refuted :
  exists (p : list (WOp RNum)) (b : Bunch),
    never_switches p /\ in_step b /\ has_weight (wrun p) (b_hits b) /\
    let (w', ok) := cut no_extra rgt_cmp (cut_nsigma no_extra) (wrun p) b [("x", 1 : RNum)] false in
    let (b', ok') := conditional_remove no_extra rgt_cmp (remove_nsigma no_extra) (wrun p) b [("x", 1 : RNum)] in
    ok = true /\ ok' = true /\ In 0%nat (b_hits b) /\ ~ In 0%nat (b_hits b') /\
    hit_get w' 0 "local_weight" = Some (PFloat (1 : RNum)).
Proof.
  exists ex_two, ex_bunch. split; [repeat constructor|]. split; [reflexivity|]. split; [exact ex_two_weight|].
  destruct (C19_nsigma_thresholds no_extra ex_two ex_bunch "x" (stored_val (wrun ex_two)) 1)
    as (var & V1 & V2 & V3 & V4).
  { repeat constructor. } { reflexivity. } { exact ex_two_weight. }
  { intros l [<-|[<-|[]]]; [rewrite ex_two_w0|rewrite ex_two_w1]; lra. }
  { intros v l [<-|[]] Hl; apply ex_two_readings; simpl; auto. }
  assert (Ev : var = 16).
  { rewrite (moment_central_spec no_extra _ _ ["x"; "x"] (stored_val (wrun ex_two))) in V1;
      [|reflexivity|reflexivity|exact ex_two_weight|].
    2:{ intros v l [<-|[<-|[]]] Hl; apply ex_two_readings; simpl; auto. }
    assert (V1' : average (wrun ex_two) (b_hits ex_bunch) (fun l => rprod (fun v => stored_val (wrun ex_two) v l -
       average (wrun ex_two) (b_hits ex_bunch) (stored_val (wrun ex_two) v)) ["x"; "x"]) = var) by congruence.
    rewrite <- V1', ex_two_average. cbn [rprod]. rewrite !ex_two_average.
    unfold stored_val. rewrite ex_two_x0, ex_two_x1. cbn [real_of]. toR. field. }
  subst var.
  assert (S1 : sqrt 16 = 4) by (replace 16 with (4 * 4) by lra; apply sqrt_square; lra).
  assert (S2 : sqrt 4 = 2) by (replace 4 with (2 * 2) by lra; apply sqrt_square; lra).
  rewrite S1 in *. rewrite S2 in V4. rewrite Rmult_1_l in V3, V4.
  cbn [cut conditional_remove]. rewrite V3, V4.
  assert (C : cut_one no_extra rgt_cmp (wrun ex_two) ex_bunch "x" 4 false = (wrun ex_two, true)).
  { unfold cut_one. replace (core_float_key "x") with (Some (DStored Vx)) by reflexivity.
    change (b_core ex_bunch) with [Some 0%nat; Some 1%nat].
    cbn [cut_double_loop].
    assert (K : forall l h, w_hits (wrun ex_two) l = Some h -> (l = 0 \/ l = 1)%nat ->
      rgt_cmp (PFloat (read_dbl (core_ctx (wrun ex_two)) h (DStored Vx))) 4 = CBool false).
    { intros l h Hh Hl. assert (G : hit_get (wrun ex_two) l "x" = Some (PFloat (h_dbl h Vx))).
      { unfold hit_get. rewrite Hh. reflexivity. }
      unfold rgt_cmp. apply f_equal. apply Rltb_ge. cbn [real_of read_dbl].
      destruct Hl as [-> | ->]; rewrite ?ex_two_x0, ?ex_two_x1 in G;
        apply (f_equal (fun o => match o with Some v => real_of v | None => 0 end)) in G; cbn [real_of] in G;
        rewrite <- G; lra. }
    destruct (w_hits (wrun ex_two) 0) as [h0|] eqn:E0.
    - rewrite (K 0%nat h0 E0) by auto. destruct (w_hits (wrun ex_two) 1) as [h1|] eqn:E1; auto.
      rewrite (K 1%nat h1 E1) by auto. reflexivity.
    - destruct (w_hits (wrun ex_two) 1) as [h1|] eqn:E1; auto. rewrite (K 1%nat h1 E1) by auto. reflexivity. }
  rewrite C.
  assert (Lv : list_get_hit_variable no_extra (wrun ex_two) (b_hits ex_bunch) "x" = Some [PFloat (4 : RNum); PFloat (-4 : RNum)])
    by reflexivity.
  rewrite Lv. change (b_hits ex_bunch) with [0%nat; 1%nat]. cbn [keep_loop].
  assert (T1 : rgt_cmp (PFloat (4 : RNum)) 2 = CBool true) by (unfold rgt_cmp; apply f_equal; apply Rltb_lt; simpl; lra).
  assert (T2 : rgt_cmp (PFloat (-4 : RNum)) 2 = CBool false) by (unfold rgt_cmp; apply f_equal; apply Rltb_ge; simpl; lra).
  rewrite T1, T2. cbn [py_truth option_map b_hits].
  repeat split; auto; [left; auto|]. intros [E|[]]. discriminate.
Qed.
Print Assumptions C19_nsigma_same_selection_refuted.
