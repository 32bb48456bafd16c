(** Property C84: the rounding errors of the statistics of bunches. *)
From Coq Require Import Reals ZArith String List Bool Permutation Lia Lra Psatz.
From Flocq Require Import Core BinarySingleNaN.
From Verif Require Import Num WeightModel HitcoreModel HitcoreSpec HitcoreProofs PyLibModel BunchModel BunchSpec BunchProofs MomentModel
  MomentSpec MomentProofs FloatModel FloatArith FloatSpec FloatProofs.
Import ListNotations.
Open Scope string_scope.
Open Scope list_scope.
Open Scope R_scope.

Lemma units_pow2 n : units n = INR n * pow2 (-52).
Proof. unfold units. rewrite <- (pow2_neg 52). reflexivity. Qed.

(** ---- an example: two hits with x = 1/10 (rounded) and 3, y = 2 and 5 ---- *)
Definition tenth : b64 := Bdiv mode_NE (b64_of_Z 1) (b64_of_Z 10).
Definition ex_float : list (WOp B64Num) :=
  [ WNew; WNew; WSet 0 "x" (@PFloat B64Num tenth); WSet 1 "x" (@PFloat B64Num (b64_of_Z 3));
    WSet 0 "y" (@PFloat B64Num (b64_of_Z 2)); WSet 1 "y" (@PFloat B64Num (b64_of_Z 5)) ].
Definition ex_pair : Bunch := append (append bunch_new 0) 1.

Lemma val_SF (x : b64) s : B2SF x = s -> val x = SF2R radix2 s.
Proof. intros <-. symmetry. apply SF2R_B2SF. Qed.
Lemma fin_SF (x : b64) : is_finite_SF (B2SF x) = true -> fin x = true.
Proof. rewrite is_finite_SF_B2SF. auto. Qed.

Lemma ex_x0 : hit_get (wrun ex_float) 0 "x" = Some (@PFloat B64Num tenth). Proof. reflexivity. Qed.
Lemma ex_x1 : hit_get (wrun ex_float) 1 "x" = Some (@PFloat B64Num (b64_of_Z 3)). Proof. reflexivity. Qed.
Lemma ex_y0 : hit_get (wrun ex_float) 0 "y" = Some (@PFloat B64Num (b64_of_Z 2)). Proof. reflexivity. Qed.
Lemma ex_y1 : hit_get (wrun ex_float) 1 "y" = Some (@PFloat B64Num (b64_of_Z 5)). Proof. reflexivity. Qed.
Lemma ex_w0 : hit_get (wrun ex_float) 0 "weight" = Some (@PFloat B64Num (Bmult mode_NE (b64_of_Z 1) (b64_of_Z 1))). Proof. reflexivity. Qed.
Lemma ex_w1 : hit_get (wrun ex_float) 1 "weight" = Some (@PFloat B64Num (Bmult mode_NE (b64_of_Z 1) (b64_of_Z 1))). Proof. reflexivity. Qed.

Ltac b64_val := erewrite val_SF by (vm_compute; reflexivity); unfold SF2R, F2R; simpl.

Lemma ex_nx0 : / 10 <= num64 (wrun ex_float) "x" 0 <= / 10 + / 10 ^ 9.
Proof. unfold num64. rewrite ex_x0. change (B2R (tenth : b64)) with (val tenth). b64_val. lra. Qed.
Lemma ex_nx1 : num64 (wrun ex_float) "x" 1 = 3.
Proof. unfold num64. rewrite ex_x1. b64_val. lra. Qed.
Lemma ex_ny0 : num64 (wrun ex_float) "y" 0 = 2.
Proof. unfold num64. rewrite ex_y0. b64_val. lra. Qed.
Lemma ex_ny1 : num64 (wrun ex_float) "y" 1 = 5.
Proof. unfold num64. rewrite ex_y1. b64_val. lra. Qed.
Lemma ex_nw0 : num64 (wrun ex_float) "weight" 0 = 1.
Proof. unfold num64. rewrite ex_w0. b64_val. lra. Qed.
Lemma ex_nw1 : num64 (wrun ex_float) "weight" 1 = 1.
Proof. unfold num64. rewrite ex_w1. b64_val. lra. Qed.

Lemma float64_of v l (x : b64) :
  hit_get (wrun ex_float) l v = Some (@PFloat B64Num x) -> is_finite_SF (B2SF x) = true -> float64 (wrun ex_float) v l.
Proof. intros H F. exists x. split; [exact H|apply fin_SF, F]. Qed.
Lemma ex_fx0 : float64 (wrun ex_float) "x" 0. Proof. apply (float64_of _ _ _ ex_x0). vm_compute. reflexivity. Qed.
Lemma ex_fx1 : float64 (wrun ex_float) "x" 1. Proof. apply (float64_of _ _ _ ex_x1). vm_compute. reflexivity. Qed.
Lemma ex_fy0 : float64 (wrun ex_float) "y" 0. Proof. apply (float64_of _ _ _ ex_y0). vm_compute. reflexivity. Qed.
Lemma ex_fy1 : float64 (wrun ex_float) "y" 1. Proof. apply (float64_of _ _ _ ex_y1). vm_compute. reflexivity. Qed.
Lemma ex_fw0 : float64 (wrun ex_float) "weight" 0. Proof. apply (float64_of _ _ _ ex_w0). vm_compute. reflexivity. Qed.
Lemma ex_fw1 : float64 (wrun ex_float) "weight" 1. Proof. apply (float64_of _ _ _ ex_w1). vm_compute. reflexivity. Qed.

Lemma ex_pair_weights : sane_weights (wrun ex_float) (b_hits ex_pair).
Proof.
  assert (P : / 2 ^ 100 <= 1 <= 2 ^ 100).
  { assert (1 <= 2 ^ 100) by (apply pow_R1_Rle; lra). split; [|lra].
    apply Rle_trans with (/ 1); [apply Rinv_le_contravar; lra|lra]. }
  split; [|split].
  - intros l [<- |[<- |[]]].
    + split; [exact ex_fw0|]. rewrite ex_nw0. exact P.
    + split; [exact ex_fw1|]. rewrite ex_nw1. exact P.
  - simpl. lra.
  - unfold weight64. cbn [rsum ex_pair append b_hits bunch_new app]. rewrite ex_nw0, ex_nw1. lra.
Qed.

Lemma size_ok x : / 1000 <= Rabs x <= 1000 -> sane_size x.
Proof.
  intros [H1 H2]. right. assert (1024 <= 2 ^ 100).
  { replace 1024 with (2 ^ 10) by lra. apply Rle_pow; [lra|lia]. }
  split; [|lra]. apply Rle_trans with (/ 1000); [apply Rinv_le_contravar; lra|exact H1].
Qed.

Lemma ex_pair_reads : forall v l, In v ["x"; "y"] -> In l (b_hits ex_pair) ->
  float64 (wrun ex_float) v l /\ sane_size (num64 (wrun ex_float) v l).
Proof.
  intros v l [<- |[<- |[]]] [<- |[<- |[]]];
    (split; [first [exact ex_fx0|exact ex_fx1|exact ex_fy0|exact ex_fy1]|apply size_ok]);
    rewrite ?ex_nx1, ?ex_ny0, ?ex_ny1; try (rewrite Rabs_right; lra).
  pose proof ex_nx0. rewrite Rabs_right; lra.
Qed.

(** ---------------------------------------------------------------- C84 *)

(** C84.  The weight of a bunch, as computed, is the sum of the weights of its hits up to n units of
    relative precision, n being the number of hits. *)
Theorem C84_weight :
  forall (p : list (WOp B64Num)) (b : Bunch),
    sane_weights (wrun p) (b_hits b) ->
    exists x : b64, bunch_weight (wrun p) b = x /\ is_finite x = true /\
      Rabs (B2R x - weight64 (wrun p) (b_hits b)) <= units (List.length (b_hits b)) * weight64 (wrun p) (b_hits b).
Proof.
  intros p b S. exists (bunch_weight (wrun p) b). split; [reflexivity|]. rewrite units_pow2. apply weight_error, S.
Qed.
Print Assumptions C84_weight.

Example C84_weight_ex : exists x : b64, bunch_weight (wrun ex_float) ex_pair = x /\ is_finite x = true /\
  Rabs (B2R x - 2) <= 4 * / 2 ^ 52.
Proof.
  destruct (C84_weight ex_float ex_pair ex_pair_weights) as (x & E & F & B). exists x. split; [exact E|]. split; [exact F|].
  unfold weight64, units in B. cbn [rsum ex_pair append b_hits bunch_new app length] in B. rewrite ex_nw0, ex_nw1 in B.
  replace (1 + (1 + 0)) with 2 in B by lra. simpl INR in B. lra.
Qed.

(** C84.  A moment about given floats m_v, of up to six variables, is the exact weighted average of the
    product of the deviations up to 2n + 2k + 1 units of the average of the absolute product. *)
Theorem C84_moment :
  forall extra (p : list (WOp B64Num)) (b : Bunch) (vars : list string) (d : list (string * b64)) (m : string -> b64),
    never_switches p -> in_step b -> sane_weights (wrun p) (b_hits b) -> (List.length vars <= 6)%nat -> d <> [] ->
    (forall v l, In v vars -> In l (b_hits b) -> float64 (wrun p) v l) ->
    (forall v, In v vars -> assoc d v = Some (m v) /\ is_finite (m v) = true) ->
    (forall v l, In v vars -> In l (b_hits b) -> sane_size (num64 (wrun p) v l - B2R (m v))) ->
    exists x : b64,
      moment extra no_fixed (wrun p) b vars (map (fun q => (fst q, @PFloat B64Num (snd q))) d) = inr x /\
      is_finite x = true /\
      Rabs (B2R x - average64 (wrun p) (b_hits b) (fun l => rprod (fun v => num64 (wrun p) v l - B2R (m v)) vars))
      <= units (2 * List.length (b_hits b) + 2 * List.length vars + 1) *
         average64 (wrun p) (b_hits b) (fun l => Rabs (rprod (fun v => num64 (wrun p) v l - B2R (m v)) vars)).
Proof.
  intros extra p b vars d m Hn Hs S K Hd Hr Hm Hv. rewrite units_pow2.
  destruct (moment_about_ok extra (wrun p) (never_switches_cur p Hn) b Hs S vars
    (map (fun q => (fst q, @PFloat B64Num (snd q))) d) d m K Hr) as (x & E & F & _ & B).
  - unfold float_map. rewrite map_map. cbn [fst snd]. clear. induction d as [|[k y] d IH]; [reflexivity|].
    exact (f_equal (option_map (cons (k, y))) IH).
  - intros v H. change (match assoc d v with Some y => y | None => B754_zero false end = m v).
    rewrite (proj1 (Hm v H)). reflexivity.
  - intros v H. apply (Hm v H).
  - exact Hv.
  - exists x. split; [|split; [exact F|exact B]]. etransitivity; [|exact E]. unfold moment.
    rewrite (not_light (wrun p) _ S b eq_refl). unfold fixed_cov. cbn [f_covs no_fixed].
    destruct d as [|q d]; [congruence|]. reflexivity.
Qed.
Print Assumptions C84_moment.

Lemma ex_average f : average64 (wrun ex_float) (b_hits ex_pair) f = (f 0%nat + f 1%nat) / 2.
Proof.
  unfold average64, weight64. cbn [rsum ex_pair append b_hits bunch_new app]. rewrite ex_nw0, ex_nw1. field.
Qed.

(** The second moment of y about 1 is (1 + 16)/2. *)
Example C84_moment_ex : exists x : b64,
  moment (fun _ _ _ _ => None) no_fixed (wrun ex_float) ex_pair ["y"; "y"] [("y", @PFloat B64Num (b64_of_Z 1))] = inr x /\
  is_finite x = true /\ Rabs (B2R x - 17 / 2) <= 9 * / 2 ^ 52 * (17 / 2).
Proof.
  assert (V1 : val (b64_of_Z 1) = 1) by (b64_val; lra).
  destruct (C84_moment (fun _ _ _ _ => None) ex_float ex_pair ["y"; "y"] [("y", b64_of_Z 1)] (fun _ => b64_of_Z 1)) as (x & E & F & B).
  - repeat constructor.
  - reflexivity.
  - apply ex_pair_weights.
  - simpl. lia.
  - discriminate.
  - intros v l H Hl. apply ex_pair_reads; [right; left; destruct H as [<- |[<- |[]]]; reflexivity|exact Hl].
  - intros v [<- |[<- |[]]]; (split; [reflexivity|apply fin_SF; vm_compute; reflexivity]).
  - intros v l H Hl. apply size_ok. assert (Ev : v = "y") by (destruct H as [<- |[<- |[]]]; reflexivity). subst v.
    rewrite V1. destruct Hl as [<- |[<- |[]]]; rewrite ?ex_ny0, ?ex_ny1; rewrite Rabs_right; lra.
  - exists x. split; [exact E|]. split; [exact F|]. rewrite !ex_average in B. cbn [rprod] in B.
    rewrite V1, ex_ny0, ex_ny1 in B. rewrite (Rabs_right ((2 - 1) * ((2 - 1) * 1))), (Rabs_right ((5 - 1) * ((5 - 1) * 1))) in B by lra. unfold units in B.
    replace (INR (2 * Datatypes.length (b_hits ex_pair) + 2 * Datatypes.length ["y"; "y"] + 1)) with 9 in B by (simpl; lra).
    replace ((((2 - 1) * ((2 - 1) * 1) + (5 - 1) * ((5 - 1) * 1)) / 2)) with (17 / 2) in B by lra. exact B.
Qed.

(** C84.  The mean is within 2n + 3 units of the exact weighted average, relative to the average of the
    absolute values, for any list of variables. *)
Theorem C84_mean :
  forall extra (p : list (WOp B64Num)) (b : Bunch) (vars : list string),
    never_switches p -> in_step b -> sane_weights (wrun p) (b_hits b) ->
    (forall v l, In v vars -> In l (b_hits b) -> float64 (wrun p) v l /\ sane_size (num64 (wrun p) v l)) ->
    exists d, mean extra no_fixed (wrun p) b vars = inr d /\ (forall v, assoc d v <> None -> In v vars) /\
      forall v, In v vars -> exists x : b64, assoc d v = Some (@PFloat B64Num x) /\ is_finite x = true /\
        Rabs (B2R x - average64 (wrun p) (b_hits b) (num64 (wrun p) v))
        <= units (2 * List.length (b_hits b) + 3) * average64 (wrun p) (b_hits b) (fun l => Rabs (num64 (wrun p) v l)).
Proof.
  intros extra p b vars Hn Hs S H.
  destruct (mean_ok extra (wrun p) (never_switches_cur p Hn) b Hs S vars H) as (d & E & (G & _) & K).
  exists d. split; [exact E|]. split; [exact K|]. intros v Hv. destruct (G v Hv) as (x & A & F & B).
  exists x. rewrite units_pow2. auto.
Qed.
Print Assumptions C84_mean.

(** The mean of y is 3.5. *)
Example C84_mean_ex : exists d (x : b64), mean (fun _ _ _ _ => None) no_fixed (wrun ex_float) ex_pair ["x"; "y"] = inr d /\
  assoc d "y" = Some (@PFloat B64Num x) /\ Rabs (B2R x - 7 / 2) <= 7 * / 2 ^ 52 * (7 / 2).
Proof.
  destruct (C84_mean (fun _ _ _ _ => None) ex_float ex_pair ["x"; "y"]) as (d & E & _ & G).
  - repeat constructor.
  - reflexivity.
  - apply ex_pair_weights.
  - apply ex_pair_reads.
  - destruct (G "y") as (x & A & _ & B); [right; left; reflexivity|]. exists d, x. split; [exact E|]. split; [exact A|].
    rewrite !ex_average, ex_ny0, ex_ny1, (Rabs_right 2), (Rabs_right 5) in B by lra. unfold units in B.
    replace (INR (2 * Datatypes.length (b_hits ex_pair) + 3)) with 7 in B by (simpl; lra).
    replace ((2 + 5) / 2) with (7 / 2) in B by lra. exact B.
Qed.

(** C84.  Moments about the means of the bunch: the means are those of [mean], and the moment is the exact
    average about these numbers up to 2n + 2k + 1 units. *)
Theorem C84_central :
  forall extra (p : list (WOp B64Num)) (b : Bunch) (vars : list string),
    never_switches p -> in_step b -> sane_weights (wrun p) (b_hits b) -> (List.length vars <= 6)%nat ->
    (forall v l, In v vars -> In l (b_hits b) -> float64 (wrun p) v l /\ sane_size (num64 (wrun p) v l)) ->
    exists d (m : string -> b64), mean extra no_fixed (wrun p) b vars = inr d /\
      (forall v, In v vars -> assoc d v = Some (@PFloat B64Num (m v))) /\
      ((forall v l, In v vars -> In l (b_hits b) -> sane_size (num64 (wrun p) v l - B2R (m v))) ->
       exists x : b64, moment extra no_fixed (wrun p) b vars [] = inr x /\ is_finite x = true /\
         Rabs (B2R x - average64 (wrun p) (b_hits b) (fun l => rprod (fun v => num64 (wrun p) v l - B2R (m v)) vars))
         <= units (2 * List.length (b_hits b) + 2 * List.length vars + 1) *
            average64 (wrun p) (b_hits b) (fun l => Rabs (rprod (fun v => num64 (wrun p) v l - B2R (m v)) vars))).
Proof.
  intros extra p b vars Hn Hs S K H.
  destruct (mean_ok extra (wrun p) (never_switches_cur p Hn) b Hs S vars H) as (d & E & (G & fd & Hd) & _).
  exists d, (map_get fd : string -> b64). split; [exact E|].
  assert (Hm : forall v, In v vars -> assoc d v = Some (@PFloat B64Num (map_get fd v)) /\ fin (map_get fd v) = true).
  { intros v Hv. destruct (G v Hv) as (x & A & F & _). rewrite (float_map_get d fd v Hd), A. auto. }
  split; [intros v Hv; apply Hm, Hv|]. intros Hv. rewrite units_pow2.
  destruct (moment_about_ok extra (wrun p) (never_switches_cur p Hn) b Hs S vars d fd (map_get fd) K) as (x & E' & F & _ & B).
  - intros v l Hv' Hl. apply H; assumption.
  - exact Hd.
  - reflexivity.
  - intros v Hv'. apply Hm, Hv'.
  - exact Hv.
  - exists x. split; [|split; [exact F|exact B]]. unfold moment.
    rewrite (not_light (wrun p) _ S b eq_refl). unfold fixed_cov. cbn [f_covs no_fixed]. rewrite E. exact E'.
Qed.
Print Assumptions C84_central.

Lemma average64_lin w hs f g a c : 0 < weight64 w hs ->
  average64 w hs (fun l => (f l - a) * (g l - c)) =
  average64 w hs (fun l => f l * g l) - c * average64 w hs f - a * average64 w hs g + a * c.
Proof.
  intros W0. unfold average64.
  replace (rsum (fun l => num64 w "weight" l * ((f l - a) * (g l - c))) hs) with
    (rsum (fun l => num64 w "weight" l * (f l * g l)) hs - c * rsum (fun l => num64 w "weight" l * f l) hs
     - a * rsum (fun l => num64 w "weight" l * g l) hs + a * c * weight64 w hs).
  - field. lra.
  - unfold weight64. clear W0. induction hs as [|l hs IH]; cbn [rsum]; [ring|]. rewrite <- IH. ring.
Qed.

(** C84.  The covariance of two variables (the variance for u = v) is the exact weighted covariance up to
    2n + 5 units of the average of the absolute product of the deviations, and up to the product of the
    errors of the two means. *)
Theorem C84_covariance :
  forall extra (p : list (WOp B64Num)) (b : Bunch) (u v : string),
    never_switches p -> in_step b -> sane_weights (wrun p) (b_hits b) ->
    (forall q l, In q [u; v] -> In l (b_hits b) -> float64 (wrun p) q l /\ sane_size (num64 (wrun p) q l)) ->
    let avg := average64 (wrun p) (b_hits b) in let at_ q l := num64 (wrun p) q l in
    let n := List.length (b_hits b) in
    exists d (mu mv : b64), mean extra no_fixed (wrun p) b [u; v] = inr d /\
      assoc d u = Some (@PFloat B64Num mu) /\ assoc d v = Some (@PFloat B64Num mv) /\
      ((forall l, In l (b_hits b) -> sane_size (at_ u l - B2R mu) /\ sane_size (at_ v l - B2R mv)) ->
       exists x : b64, moment extra no_fixed (wrun p) b [u; v] [] = inr x /\ is_finite x = true /\
         Rabs (B2R x - avg (fun l => (at_ u l - avg (at_ u)) * (at_ v l - avg (at_ v))))
         <= units (2 * n + 5) * avg (fun l => Rabs ((at_ u l - B2R mu) * (at_ v l - B2R mv)))
            + (units (2 * n + 3) * avg (fun l => Rabs (at_ u l))) * (units (2 * n + 3) * avg (fun l => Rabs (at_ v l)))).
Proof.
  intros extra p b u v Hn Hs S H avg at_ n.
  destruct (C84_central extra p b [u; v] Hn Hs S ltac:(simpl; lia) H) as (d & m & E & Hm & C).
  destruct (C84_mean extra p b [u; v] Hn Hs S H) as (d' & E' & _ & M).
  rewrite E in E'. inversion E'; subst d'; clear E'.
  exists d, (m u), (m v). split; [exact E|]. split; [apply Hm; left; reflexivity|]. split; [apply Hm; right; left; reflexivity|].
  intros D. destruct C as (x & X & F & B).
  { intros q l [<- |[<- |[]]] Hl; apply D, Hl. }
  exists x. split; [exact X|]. split; [exact F|].
  destruct (M u (or_introl eq_refl)) as (mu & Eu & _ & Bu). rewrite (Hm u (or_introl eq_refl)) in Eu. inversion Eu; subst mu; clear Eu.
  destruct (M v (or_intror (or_introl eq_refl))) as (mv & Ev & _ & Bv). rewrite (Hm v (or_intror (or_introl eq_refl))) in Ev.
  inversion Ev; subst mv; clear Ev. fold avg in Bu, Bv, B. change (num64 (wrun p) u) with (at_ u) in Bu. change (num64 (wrun p) v) with (at_ v) in Bv.
  fold n in Bu, Bv, B. pose proof (W_gt0 (wrun p) _ S) as W0.
  assert (A : forall f g, (forall l, f l = g l) -> avg f = avg g).
  { intros f g Q. unfold avg, average64. f_equal. apply rsum_ext. intros l _. rewrite Q. reflexivity. }
  rewrite (A (fun l => rprod (fun q => num64 (wrun p) q l - B2R (m q)) [u; v]) (fun l => (at_ u l - B2R (m u)) * (at_ v l - B2R (m v)))) in B
    by (intros; simpl; unfold at_; ring).
  rewrite (A (fun l => Rabs (rprod (fun q => num64 (wrun p) q l - B2R (m q)) [u; v]))
    (fun l => Rabs ((at_ u l - B2R (m u)) * (at_ v l - B2R (m v))))) in B by (intros; f_equal; simpl; unfold at_; ring).
  replace (2 * n + 2 * List.length [u; v] + 1)%nat with (2 * n + 5)%nat in B by (simpl; lia).
  assert (Q : avg (fun l => (at_ u l - B2R (m u)) * (at_ v l - B2R (m v))) =
    avg (fun l => (at_ u l - avg (at_ u)) * (at_ v l - avg (at_ v))) + (B2R (m u) - avg (at_ u)) * (B2R (m v) - avg (at_ v))).
  { unfold avg at 1 2. rewrite !(average64_lin _ _ (at_ u) (at_ v)) by exact W0. fold avg. ring. }
  rewrite Q in B.
  set (c := avg (fun l => (at_ u l - avg (at_ u)) * (at_ v l - avg (at_ v)))) in *.
  set (du := B2R (m u) - avg (at_ u)) in *. set (dv := B2R (m v) - avg (at_ v)) in *.
  replace (B2R x - c) with ((B2R x - (c + du * dv)) + du * dv) by ring.
  apply Rle_trans with (1 := Rabs_triang _ _). apply Rplus_le_compat; [exact B|]. rewrite Rabs_mult.
  apply Rmult_le_compat; try apply Rabs_pos; assumption.
Qed.
Print Assumptions C84_covariance.

(** The covariance of x and y: about 2.175. *)
Example C84_covariance_ex : exists x : b64,
  moment (fun _ _ _ _ => None) no_fixed (wrun ex_float) ex_pair ["x"; "y"] [] = inr x /\ is_finite x = true /\
  Rabs (B2R x - 2175 / 1000) <= / 10 ^ 8.
Proof.
  destruct (C84_covariance (fun _ _ _ _ => None) ex_float ex_pair "x" "y") as (d & mu & mv & E & Eu & Ev & C).
  - repeat constructor.
  - reflexivity.
  - apply ex_pair_weights.
  - apply ex_pair_reads.
  - destruct (C84_mean (fun _ _ _ _ => None) ex_float ex_pair ["x"; "y"]) as (d' & E' & _ & M);
      [repeat constructor|reflexivity|apply ex_pair_weights|apply ex_pair_reads|].
    rewrite E in E'. inversion E'; subst d'; clear E'.
    destruct (M "x" (or_introl eq_refl)) as (m & Em & _ & Bu). rewrite Eu in Em. inversion Em; subst m; clear Em.
    destruct (M "y" (or_intror (or_introl eq_refl))) as (m & Em & _ & Bv). rewrite Ev in Em. inversion Em; subst m; clear Em.
    rewrite !ex_average in Bu, Bv. pose proof ex_nx0 as X0.
    rewrite ex_nx1 in Bu. rewrite ex_ny0, ex_ny1 in Bv.
    rewrite !(Rabs_right (num64 _ _ _)) in Bu by lra. rewrite (Rabs_right 3) in Bu by lra. rewrite (Rabs_right 2), (Rabs_right 5) in Bv by lra.
    unfold units in *. simpl (List.length (b_hits ex_pair)) in *.
    replace (INR (2 * 2 + 3)) with 7 in * by (simpl; lra). replace (INR (2 * 2 + 5)) with 9 in * by (simpl; lra).
    assert (U : / 2 ^ 52 <= / 10 ^ 12) by lra. assert (U0 : 0 < / 2 ^ 52) by (apply Rinv_0_lt_compat; lra).
    set (e := / 2 ^ 52) in *. clearbody e. set (x0 := num64 (wrun ex_float) "x" 0) in *.
    assert (Du : Rabs (B2R mu - (x0 + 3) / 2) <= / 10 ^ 10) by (eapply Rle_trans; [exact Bu|nra]).
    assert (Dv : Rabs (B2R mv - (2 + 5) / 2) <= / 10 ^ 10) by (eapply Rle_trans; [exact Bv|nra]).
    apply Rabs_le_inv in Du. apply Rabs_le_inv in Dv.
    destruct C as (x & X & F & B).
    { intros l [<- |[<- |[]]]; rewrite ?ex_nx1, ?ex_ny0, ?ex_ny1; fold x0; split; apply size_ok;
        (rewrite Rabs_right by lra; lra) || (rewrite Rabs_left by lra; lra). }
    exists x. split; [exact X|]. split; [exact F|]. rewrite !ex_average, ex_nx1, ex_ny0, ex_ny1 in B. fold x0 in B.
    assert (V : Rabs ((x0 - B2R mu) * (2 - B2R mv)) <= 4 /\ Rabs ((3 - B2R mu) * (5 - B2R mv)) <= 4).
    { split; apply Rabs_le; split; nra. }
    rewrite !(Rabs_right x0), !(Rabs_right 2), !(Rabs_right 5), !(Rabs_right 3) in B by lra.
    set (a := Rabs ((x0 - B2R mu) * (2 - B2R mv))) in *. set (c := Rabs ((3 - B2R mu) * (5 - B2R mv))) in *.
    assert (0 <= a) by apply Rabs_pos. assert (0 <= c) by apply Rabs_pos.
    assert (R1 : 9 * e * ((a + c) / 2) + 7 * e * ((x0 + 3) / 2) * (7 * e * ((2 + 5) / 2)) <= / 10 ^ 9) by nra.
    apply Rle_trans with (2 := ltac:(lra) : / 10 ^ 9 + / 10 ^ 9 <= / 10 ^ 8).
    assert (K : Rabs (B2R x - ((x0 - (x0 + 3) / 2) * (2 - (2 + 5) / 2) + (3 - (x0 + 3) / 2) * (5 - (2 + 5) / 2)) / 2) <= / 10 ^ 9) by lra.
    apply Rabs_le_inv in K. apply Rabs_le. nra.
Qed.

(** C84.  The variance, as computed, is never negative, and zero only if no hit deviates from the mean. *)
Theorem C84_variance_sign :
  forall extra (p : list (WOp B64Num)) (b : Bunch) (v : string),
    never_switches p -> in_step b -> sane_weights (wrun p) (b_hits b) ->
    (forall l, In l (b_hits b) -> float64 (wrun p) v l /\ sane_size (num64 (wrun p) v l)) ->
    exists d (m : b64), mean extra no_fixed (wrun p) b [v; v] = inr d /\ assoc d v = Some (@PFloat B64Num m) /\
      ((forall l, In l (b_hits b) -> sane_size (num64 (wrun p) v l - B2R m)) ->
       exists x : b64, moment extra no_fixed (wrun p) b [v; v] [] = inr x /\ 0 <= B2R x /\
         (B2R x = 0 <-> forall l, In l (b_hits b) -> num64 (wrun p) v l = B2R m)).
Proof.
  intros extra p b v Hn Hs S H.
  assert (H2 : forall q l, In q [v; v] -> In l (b_hits b) -> float64 (wrun p) q l /\ sane_size (num64 (wrun p) q l)).
  { intros q l [<- |[<- |[]]]; apply H. }
  destruct (mean_ok extra (wrun p) (never_switches_cur p Hn) b Hs S [v; v] H2) as (d & E & (G & fd & Hd) & _).
  destruct (G v (or_introl eq_refl)) as (m & A & F & _). exists d, m. split; [exact E|]. split; [exact A|]. intros D.
  destruct (moment_about_ok extra (wrun p) (never_switches_cur p Hn) b Hs S [v; v] d fd (fun _ => m)) as (x & E' & _ & P & _).
  - simpl. lia.
  - intros q l Hq Hl. apply H2; assumption.
  - exact Hd.
  - intros q Hq. assert (q = v) by (destruct Hq as [<- |[<- |[]]]; reflexivity). subst q.
    rewrite (float_map_get d fd v Hd), A. reflexivity.
  - intros. exact F.
  - intros q l Hq Hl. assert (q = v) by (destruct Hq as [<- |[<- |[]]]; reflexivity). subst q. apply D, Hl.
  - exists x. split.
    { unfold moment. rewrite (not_light (wrun p) _ S b eq_refl). unfold fixed_cov. cbn [f_covs no_fixed]. rewrite E. exact E'. }
    pose proof (W_gt0 (wrun p) _ S) as W0. set (N := (2 * Datatypes.length (b_hits b) + 2 * Datatypes.length [v; v] + 1)%nat) in *.
    set (t := fun l => num64 (wrun p) "weight" l / weight64 (wrun p) (b_hits b) * rprod (fun v0 => num64 (wrun p) v0 l - val m) [v; v]) in P.
    assert (Ht : forall l, t l = num64 (wrun p) "weight" l / weight64 (wrun p) (b_hits b) * (num64 (wrun p) v l - val m)²).
    { intros l. unfold t, Rsqr. simpl. ring. }
    assert (Pos : forall l, In l (b_hits b) -> 0 < num64 (wrun p) "weight" l / weight64 (wrun p) (b_hits b)).
    { intros l Hl. apply Rdiv_lt_0_compat; [|exact W0]. destruct S as (S1 & _). destruct (S1 l Hl) as (_ & S2 & _).
      apply Rlt_le_trans with (2 := S2). apply Rinv_0_lt_compat, pow_lt; lra. }
    assert (T0 : forall l, In l (b_hits b) -> 0 <= t l).
    { intros l Hl. rewrite Ht. apply Rmult_le_pos; [left; apply Pos, Hl|apply Rle_0_sqr]. }
    pose proof (perturbed_pos N t (b_hits b) (val x) T0 P) as [P1 P2].
    pose proof (rsum_nonneg t (b_hits b) T0) as R0. pose proof (pow_u_pos N) as U. pose proof (Rinv_0_lt_compat _ U) as U'.
    split; [apply Rle_trans with (2 := P1); apply Rmult_le_pos; lra|]. split.
    + intros Z l Hl. change (B2R x) with (val x) in Z. rewrite Z in P1.
      assert (R1 : rsum t (b_hits b) = 0) by nra.
      assert (T1 : t l = 0).
      { clearbody t. clear - T0 R1 Hl. induction (b_hits b) as [|a hs IH]; [destruct Hl|]. cbn [rsum] in R1.
        pose proof (T0 a (or_introl eq_refl)). pose proof (rsum_nonneg t hs ltac:(intros; apply T0; right; assumption)).
        destruct Hl as [<- |Hl]; [lra|]. apply IH; [intros; apply T0; right; assumption|exact Hl|lra]. }
      rewrite Ht in T1. apply Rmult_integral in T1. destruct T1 as [T1|T1]; [pose proof (Pos l Hl); lra|].
      apply Rsqr_0_uniq in T1. change (B2R m) with (val m). lra.
    + intros Z. assert (R1 : rsum t (b_hits b) = 0).
      { rewrite (rsum_ext t (fun _ => 0)); [apply rsum_zero|]. intros l Hl. rewrite Ht. rewrite (Z l Hl).
        change (B2R m) with (val m). unfold Rsqr. ring. }
      rewrite R1 in P1, P2. change (B2R x) with (val x). lra.
Qed.
Print Assumptions C84_variance_sign.

(** The variance of y, whose hits deviate from the mean, is positive. *)
Example C84_variance_sign_ex : exists x : b64,
  moment (fun _ _ _ _ => None) no_fixed (wrun ex_float) ex_pair ["y"; "y"] [] = inr x /\ 0 < B2R x.
Proof.
  destruct (C84_variance_sign (fun _ _ _ _ => None) ex_float ex_pair "y") as (d & m & E & A & C).
  - repeat constructor.
  - reflexivity.
  - apply ex_pair_weights.
  - intros l Hl. apply ex_pair_reads; [right; left; reflexivity|exact Hl].
  - destruct (C84_mean (fun _ _ _ _ => None) ex_float ex_pair ["y"; "y"]) as (d' & E' & _ & M);
      [repeat constructor|reflexivity|apply ex_pair_weights| |].
    { intros v l H Hl. apply ex_pair_reads; [right; left; destruct H as [<- |[<- |[]]]; reflexivity|exact Hl]. }
    rewrite E in E'. inversion E'; subst d'; clear E'.
    destruct (M "y" (or_introl eq_refl)) as (m' & Em & _ & B). rewrite A in Em. inversion Em; subst m'; clear Em.
    rewrite !ex_average, ex_ny0, ex_ny1 in B. rewrite (Rabs_right 2), (Rabs_right 5) in B by lra.
    assert (D : Rabs (B2R m - 7 / 2) <= / 10).
    { replace (7 / 2) with ((2 + 5) / 2) by lra. eapply Rle_trans; [exact B|]. unfold units. simpl (List.length (b_hits ex_pair)).
      replace (INR (2 * 2 + 3)) with 7 by (simpl; lra). lra. }
    apply Rabs_le_inv in D. destruct C as (x & X & P & Z).
    { intros l [<- |[<- |[]]]; rewrite ?ex_ny0, ?ex_ny1; apply size_ok;
        (rewrite Rabs_right by lra; lra) || (rewrite Rabs_left by lra; lra). }
    exists x. split; [exact X|]. destruct P as [P|P]; [exact P|]. exfalso.
    symmetry in P. pose proof (proj1 Z P 0%nat (or_introl eq_refl)) as Q. rewrite ex_ny0 in Q. lra.
Qed.

(** Over the real numbers the mean does not depend on the order of the hits (C21).  As computed it does:
    4 * 2^53, 4, 4, -4 * 2^53 have mean 2, but the mean comes out as 0 in this order and as 2 in another. *)
Definition ex_order : list (WOp B64Num) :=
  [ WNew; WNew; WNew; WNew; WSet 0 "x" (@PFloat B64Num (b64_of_Z (4 * 2 ^ 53))); WSet 1 "x" (@PFloat B64Num (b64_of_Z 4));
    WSet 2 "x" (@PFloat B64Num (b64_of_Z 4)); WSet 3 "x" (@PFloat B64Num (b64_of_Z (-4 * 2 ^ 53))) ].
Definition mean_x (b : Bunch) : option b64 :=
  match mean (fun _ _ _ _ => None) no_fixed (wrun ex_order) b ["x"] with
  | inr d => match assoc d "x" with Some (PFloat x) => Some x | _ => None end
  | inl _ => None
  end.
Lemma mean_x_spec b (x : b64) : mean_x b = Some x ->
  exists d, mean (fun _ _ _ _ => None) no_fixed (wrun ex_order) b ["x"] = inr d /\ assoc d "x" = Some (@PFloat B64Num x).
Proof.
  unfold mean_x. destruct (mean _ _ _ _ _) as [e|d]; [discriminate|]. destruct (assoc d "x") as [[y| |]|] eqn:E; try discriminate.
  intros H. inversion H. subst. eauto.
Qed.
Lemma option_map_some {A B} (f : A -> B) o y : option_map f o = Some y -> exists x, o = Some x /\ f x = y.
Proof. destruct o as [x|]; intros H; inversion H. eauto. Qed.

Theorem C84_order_refuted :
  exists (p : list (WOp B64Num)) (b b' : Bunch) d d' (x x' : b64),
    never_switches p /\ in_step b /\ in_step b' /\ Permutation (b_hits b) (b_hits b') /\
    mean (fun _ _ _ _ => None) no_fixed (wrun p) b ["x"] = inr d /\ assoc d "x" = Some (@PFloat B64Num x) /\
    mean (fun _ _ _ _ => None) no_fixed (wrun p) b' ["x"] = inr d' /\ assoc d' "x" = Some (@PFloat B64Num x') /\
    B2R x = 0 /\ B2R x' = 2.
Proof.
  set (b := append (append (append (append bunch_new 0) 1) 2) 3).
  set (b' := append (append (append (append bunch_new 1) 2) 0) 3).
  assert (X : option_map B2SF (mean_x b) = Some (SpecFloat.S754_zero false)) by (vm_compute; reflexivity).
  assert (X' : exists m e, option_map B2SF (mean_x b') = Some (SpecFloat.S754_finite false m e) /\ F2R (Float radix2 (Zpos m) e) = 2).
  { do 2 eexists. split; [vm_compute; reflexivity|]. unfold F2R. simpl. lra. }
  destruct X' as (m & e & X' & V').
  apply option_map_some in X. destruct X as (x & E & X1). apply option_map_some in X'. destruct X' as (x' & E' & X1').
  apply mean_x_spec in E. destruct E as (d & E1 & E2). apply mean_x_spec in E'. destruct E' as (d' & E1' & E2').
  exists ex_order, b, b', d, d', x, x'.
  split; [repeat constructor|]. split; [reflexivity|]. split; [reflexivity|].
  split; [apply (Permutation_middle [1; 2]%nat [3%nat] 0%nat)|].
  split; [exact E1|]. split; [exact E2|]. split; [exact E1'|]. split; [exact E2'|].
  split.
  - rewrite (val_SF x _ X1). reflexivity.
  - rewrite (val_SF x' _ X1'). exact V'.
Qed.
Print Assumptions C84_order_refuted.
