(** Property C78: queries of bunches by name. *)
From Coq Require Import Reals ZArith Lia Lra String List Bool Permutation Sorted.
From Verif Require Import Num WeightModel HitcoreModel HitcoreSpec PyLibModel PyLibProofs BunchModel BunchSpec BunchProps HitPyModel
  MomentModel MomentSpec MomentProofs StatProofs BunchNumModel HitPySpec CommonModel CommonSpec CommonProofs EllipseModel EllipseSpec TwissProofs TableModel
  QueryModel QueryProofs MomentProps EllipseProps TwissProps DispersionProps.
Import ListNotations.
Open Scope string_scope.
Open Scope list_scope.
Open Scope R_scope.

(** ---- Bunch.get ---- *)

(** C78.  get('mean', v, ...) is the average of v, if all the variables listed are readable;
    get('moment', vs) is the average of the product of the deviations;
    get('standard_deviation', v, ...) is the root of the average squared deviation of v;
    get('bunch_weight', ...) is the sum of the weights, whatever is listed. *)
Theorem C78_get_moments :
  forall extra flag (w : RWorld) (b : Bunch) (v : string) (vs : list string) (val : string -> nat -> R),
    usable w b -> readings extra w (b_hits b) (v :: vs) val ->
    bunch_get extra flag no_fixed w b "mean" (v :: vs) = inr (Some (average w (b_hits b) (val v))) /\
    bunch_get extra flag no_fixed w b "moment" (v :: vs) =
      inr (Some (average w (b_hits b) (fun l => rprod (fun u => val u l - average w (b_hits b) (val u)) (v :: vs)))) /\
    (nonneg_weights w (b_hits b) -> exists s, 0 <= s /\
       bunch_get extra flag no_fixed w b "standard_deviation" (v :: vs) = inr (Some s) /\
       s * s = average w (b_hits b) (fun l => (val v l - average w (b_hits b) (val v)) * (val v l - average w (b_hits b) (val v)))) /\
    forall us, bunch_get extra flag no_fixed w b "bunch_weight" us = inr (Some (total_weight w (b_hits b))).
Proof.
  intros extra flag w b v vs val U Hr. pose proof U as (U1 & U2 & U3). split; [|split; [|split]].
  - cbn [bunch_get String.eqb Ascii.eqb Bool.eqb].
    destruct (mean_spec extra w b (v :: vs) val U1 U2 U3 Hr) as (d & D & Dv & _).
    unfold bunch_get. cbn -[mean average]. rewrite D. cbn [bindE first_of]. rewrite (Dv v) by (left; auto). reflexivity.
  - unfold bunch_get. cbn -[moment average rprod]. rewrite (moment_central_spec extra w b (v :: vs) val U1 U2 U3 Hr). reflexivity.
  - intros Hw. unfold bunch_get. cbn -[moment average].
    assert (R2 : readings extra w (b_hits b) [v; v] val).
    { intros u l [<- | [<- | []]] L; apply Hr; auto; left; auto. }
    rewrite (moment_central_spec extra w b [v; v] val U1 U2 U3 R2). cbn [bindE rprod].
    set (dv := fun l => val v l - average w (b_hits b) (val v)).
    assert (E : average w (b_hits b) (fun l => dv l * (dv l * 1)) = average w (b_hits b) (fun l => dv l * dv l)).
    { apply average_ext; auto. intros. ring. }
    unfold dv in E. rewrite E. fold dv. clear E.
    assert (P : 0 <= average w (b_hits b) (fun l => dv l * dv l)).
    { apply average_nonneg; auto; [apply (usable_nz w b U)|]. intros. apply Rle_0_sqr. }
    exists (sqrt (average w (b_hits b) (fun l => dv l * dv l))). split; [apply sqrt_pos|]. split.
    + unfold half_power. unfold dv in *. destruct (Rlt_dec _ 0); [lra|reflexivity].
    + apply sqrt_sqrt. auto.
  - intros us. unfold bunch_get. cbn -[bunch_weight total_weight]. f_equal. f_equal. apply bunch_weight_total. apply U3.
Qed.
Print Assumptions C78_get_moments.

(** C78.  The names accepted are exactly those listed by get_variables; others are a KeyError. *)
Definition bunch_variables : list string :=
  ["angular_momentum"; "emittance"; "dispersion"; "dispersion_prime"; "beta"; "alpha"; "gamma"; "moment"; "mean";
   "bunch_weight"; "standard_deviation"].
Theorem C78_get_unknown :
  forall extra flag fx (w : RWorld) (b : Bunch) (name : string) (vs : list string),
    ~ In name bunch_variables -> bunch_get extra flag fx w b name vs = inl MKeyError.
Proof.
  intros extra flag fx w b name vs H. unfold bunch_get.
  repeat match goal with |- context [String.eqb name ?s] =>
    destruct (String.eqb_spec name s) as [-> |]; [exfalso; apply H; cbn; tauto|] end. reflexivity.
Qed.
Print Assumptions C78_get_unknown.

(** C78.  The Twiss parameters by name: beta gamma - alpha^2 = 1, and with the emittance they give back
    the covariances. *)
Theorem C78_get_twiss :
  forall extra flag (w : RWorld) b a m val,
    usable w b -> covariance_list [a] flag = Some [a; m] ->
    readings extra w (b_hits b) (if flag then [a; m] else [a; m; "p"]) val ->
    let mass := bunch_mass w b in
    let p := average w (b_hits b) (val "p") in
    let V := covariance w (b_hits b) val in
    (flag = false -> 0 < mass /\ 0 < p) -> 0 < V a a -> 0 < V a a * V m m - V a m * V a m ->
    exists e beta gamma alpha,
      bunch_get extra flag no_fixed w b "emittance" [a] = inr (Some e) /\
      bunch_get extra flag no_fixed w b "beta" [a] = inr (Some beta) /\
      bunch_get extra flag no_fixed w b "gamma" [a] = inr (Some gamma) /\
      bunch_get extra flag no_fixed w b "alpha" [a] = inr (Some alpha) /\
      beta * gamma - alpha * alpha = 1 /\
      build_ellipse_2d beta alpha e p mass flag = inr [[V a a; V a m]; [V m a; V m m]].
Proof.
  intros extra flag w b a m val U Hl Hr mass p V Hpm Ha Hd.
  destruct (C63_twiss extra flag w b a m val U Hl Hr Hpm Ha Hd) as (e & beta & gamma & alpha & E1 & E2 & E3 & E4 & E5 & _ & _ & E6).
  exists e, beta, gamma, alpha. repeat (split; [assumption|]). assumption.
Qed.
Print Assumptions C78_get_twiss.

(** C78.  The dispersion by name is cov(v, E) <E> / var(E), the dispersion prime that of the momentum of the axis,
    whatever the class variable for geometric momenta says; the angular momentum is that about the z axis, whatever is listed. *)
Theorem C78_get_optics :
  forall extra flag (w : RWorld) b (val : string -> nat -> R) v m vs,
    usable w b ->
    let V := covariance w (b_hits b) val in
    (readings extra w (b_hits b) [v; "energy"] val -> V "energy" "energy" <> 0 ->
     bunch_get extra flag no_fixed w b "dispersion" (v :: vs) =
       inr (Some (V v "energy" * average w (b_hits b) (val "energy") / V "energy" "energy"))) /\
    (readings extra w (b_hits b) [m; "energy"] val -> V "energy" "energy" <> 0 -> In (v, m) (conjugates false) ->
     bunch_get extra flag no_fixed w b "dispersion_prime" (v :: vs) =
       inr (Some (V m "energy" * average w (b_hits b) (val "energy") / V "energy" "energy"))) /\
    (readings extra w (b_hits b) ["x"; "y"; "px"; "py"] val ->
     bunch_get extra false no_fixed w b "angular_momentum" vs =
       inr (Some (average w (b_hits b) (fun l => val "x" l * val "py" l - val "y" l * val "px" l)))) /\
    (readings extra w (b_hits b) ["x"; "y"; "x'"; "y'"; "pz"] val ->
     bunch_get extra true no_fixed w b "angular_momentum" vs =
       inr (Some (average w (b_hits b) (fun l => val "x" l * val "y'" l - val "y" l * val "x'" l) *
                  average w (b_hits b) (val "pz")))).
Proof.
  intros extra flag w b val v m vs U V. split; [|split; [|split]].
  - intros Hr HV. unfold bunch_get. cbn [String.eqb Ascii.eqb Bool.eqb first_of bindE]. unfold get_dispersion.
    rewrite (dispersion_spec extra w b val v U Hr). destruct (Req_EM_T _ 0); [contradiction|reflexivity].
  - intros Hr HV Hm. unfold bunch_get. cbn [String.eqb Ascii.eqb Bool.eqb first_of bindE].
    rewrite (proj1 (C69_prime extra w b val v false) m Hm U Hr HV). reflexivity.
  - intros Hr. unfold bunch_get. cbn [String.eqb Ascii.eqb Bool.eqb].
    rewrite (C58_kinetic extra w b default_axis val (fun _ => 0) U Hr).
    + cbn [bindE]. do 2 f_equal. apply average_ext; auto. intros. ring.
    + intros u Hu. exists (PInt 0%Z). split; [|split; [discriminate|reflexivity]].
      cbn in Hu. destruct Hu as [<- | [<- | [<- | [<- | []]]]]; reflexivity.
  - intros Hr. unfold bunch_get. cbn [String.eqb Ascii.eqb Bool.eqb].
    rewrite (C58_kinetic_geometric extra w b default_axis val (fun _ => 0) U Hr).
    + cbn [bindE]. do 2 f_equal. f_equal. apply average_ext; auto. intros. ring.
    + intros u Hu. exists (PInt 0%Z). split; [|split; [discriminate|reflexivity]].
      cbn in Hu. destruct Hu as [<- | [<- | [<- | [<- | []]]]]; reflexivity.
Qed.
Print Assumptions C78_get_optics.

(** "get('mean', [v, u]): u is ignored" is refuted: a u that cannot be read raises. *)
Theorem C78_mean_ignored_refuted :
  exists (p : list (WOp RNum)) (b : Bunch) (u : string),
    usable (wrun p) b /\
    (exists x, bunch_get no_extra false no_fixed (wrun p) b "mean" ["x"] = inr (Some x)) /\
    bunch_get no_extra false no_fixed (wrun p) b "mean" ["x"; u] = inl MOther.
Proof.
  assert (U : usable (wrun ex_two) ex_bunch) by (split; [reflexivity|split; [reflexivity|exact ex_two_weight]]).
  assert (R1 : readings no_extra (wrun ex_two) (b_hits ex_bunch) ["x"] (stored_val (wrun ex_two))).
  { intros v l [<- | []] L. apply ex_two_readings; auto. left; auto. }
  exists ex_two, ex_bunch, "nosuch". split; [exact U|]. split.
  - eexists. apply (C78_get_moments no_extra false (wrun ex_two) ex_bunch "x" [] _ U R1).
  - unfold bunch_get. cbn [String.eqb Ascii.eqb Bool.eqb]. unfold mean. cbn [mean_loop assoc f_means no_fixed].
    rewrite (moment_about_spec no_extra (wrun ex_two) ex_bunch ["x"] _ (stored_val (wrun ex_two)) (fun _ => 0));
      [|reflexivity|reflexivity|exact ex_two_weight|exact R1|].
    2: { intros v [<- | []]. exists (@PFloat RNum 0). split; [reflexivity|]. split; [discriminate|reflexivity]. }
    cbn [app assoc String.eqb Ascii.eqb Bool.eqb]. unfold moment_about. rewrite weight_check by exact ex_two_weight. reflexivity.
Qed.
Print Assumptions C78_mean_ignored_refuted.

(** ---- list_get ---- *)

(** [has_value extra flag w names axes i fb x]: the i-th quantity of bunch fb is the number x. *)
Definition has_value (extra : RWorld -> list nat -> string -> nat -> option RVal) (flag : bool) (w : RWorld)
    (names : list string) (axes : list (list string)) (i : nat) (fb : Fixed RNum * Bunch) (x : R) : Prop :=
  exists name a, nth_error names i = Some name /\ nth_error axes i = Some a /\
    bunch_get extra flag (fst fb) w (snd fb) name a = inr (Some x).

(** C78.  list_get gives one list per quantity.  All the lists follow one order of the bunches, which has
    every bunch once, is ascending in the first quantity, and keeps the order given between bunches
    that agree in it. *)
Theorem C78_list_get :
  forall extra flag (w : RWorld) (bunches : list (Fixed RNum * Bunch)) (names : list string) (axes : list (list string))
         (val : nat -> Fixed RNum * Bunch -> R),
    names <> [] ->
    (forall i fb, (i < List.length names)%nat -> In fb bunches -> has_value extra flag w names axes i fb (val i fb)) ->
    exists order,
      list_get extra flag w bunches names axes =
        inr (map (fun i => map (fun fb => Some (val i fb)) order) (seq 0 (List.length names))) /\
      Permutation order bunches /\
      StronglySorted (fun a b => val 0%nat a <= val 0%nat b) order /\
      forall x, filter (fun fb => if Req_EM_T (val 0%nat fb) x then true else false) order =
                filter (fun fb => if Req_EM_T (val 0%nat fb) x then true else false) bunches.
Proof.
  intros extra flag w bunches names axes val Nn Hv.
  set (m := List.length names). assert (Hm : (0 < m)%nat) by (subst m; destruct names; [congruence|cbn; lia]).
  set (f := fun i (fb : Fixed RNum * Bunch) => Some (val i fb)).
  set (lt := fun a b : Fixed RNum * Bunch => rltb (val 0%nat a) (val 0%nat b)).
  assert (W : weak_order lt).
  { pose proof rltb_weak as [A B]. constructor; intros; unfold lt in *; eauto. }
  exists (sort lt bunches). split; [|split; [apply sort_perm|split]].
  - unfold list_get.
    rewrite (QueryProofs.all_inr_map _ (fun fb => map (fun i => f i fb) (seq 0 m))).
    2: { intros fb I. apply QueryProofs.all_inr_map. intros i Hi. apply in_seq in Hi. fold m in Hi.
         destruct (Hv i fb ltac:(lia) I) as (name & a & N1 & N2 & G). rewrite N2.
         rewrite (nth_error_nth _ _ "" N1). exact G. }
    cbn [bindE]. fold m.
    replace (map (fun i => map (fun r => nth i r None) (map (fun fb => map (fun i0 => f i0 fb) (seq 0 m)) bunches)) (seq 0 m))
      with (map (fun i => map (f i) bunches) (seq 0 m)).
    2: { apply map_ext_in. intros i Hi. apply in_seq in Hi. rewrite map_map. apply map_ext. intros fb.
         rewrite (nth_indep _ None (f 0%nat fb)) by (rewrite map_length, seq_length; lia).
         rewrite (map_nth (fun i => f i fb)), seq_nth; auto. lia. }
    rewrite (multisort_items value_ltb f m bunches Hm). reflexivity.
  - pose proof (sort_sorted lt W bunches) as S1. revert S1. generalize (sort lt bunches). intros l S1.
    induction S1 as [|a l S1 IH F]; constructor; auto. revert F. apply Forall_impl. intros c L.
    unfold le, lt, rltb in L. destruct (Rlt_dec _ _); [discriminate|lra].
  - intros x. apply sort_stable; auto. intros a c. unfold lt, rltb.
    destruct (Req_EM_T (val 0%nat a) x), (Req_EM_T (val 0%nat c) x); try discriminate. intros _ _.
    destruct (Rlt_dec _ _); auto; lra.
Qed.
Print Assumptions C78_list_get.

(** C78.  No quantities: an error (of the sort), also without bunches. *)
Theorem C78_list_get_nothing :
  forall extra flag (w : RWorld) (bunches : list (Fixed RNum * Bunch)) (axes : list (list string)),
    list_get extra flag w bunches [] axes = inl MOther.
Proof.
  intros. unfold list_get. cbn [List.length seq map].
  rewrite (QueryProofs.all_inr_map _ (fun _ => [])) by (intros; reflexivity). reflexivity.
Qed.
Print Assumptions C78_list_get_nothing.

(** C78.  If a quantity of a bunch raises, so does list_get. *)
Theorem C78_list_get_error :
  forall extra flag (w : RWorld) (bunches : list (Fixed RNum * Bunch)) (names : list string) (axes : list (list string)) fb i name a e,
    In fb bunches -> nth_error names i = Some name -> nth_error axes i = Some a ->
    bunch_get extra flag (fst fb) w (snd fb) name a = inl e ->
    exists e', list_get extra flag w bunches names axes = inl e'.
Proof.
  intros extra flag w bunches names axes fb i name a e I Hn Ha G. unfold list_get.
  match goal with |- exists e', (bindE ?r _) = _ => destruct r as [e'|rows] eqn:E end; [exists e'; reflexivity|].
  exfalso. apply all_inr_forall2 in E.
  assert (Q : exists row, all_inr (map (fun i0 => match nth_error axes i0 with
     | Some a0 => bunch_get extra flag (fst fb) w (snd fb) (nth i0 names "") a0 | None => inl MOther end)
     (seq 0 (List.length names))) = inr row).
  { revert I. induction E as [|x row xs rs P F IH]; [intros []|]. intros [-> | I]; eauto. }
  destruct Q as (row & Q). apply all_inr_forall2 in Q.
  assert (L : (i < List.length names)%nat) by (apply nth_error_Some; congruence).
  assert (I2 : In i (seq 0 (List.length names))) by (apply in_seq; lia).
  clear E. revert I2. induction Q as [|x v xs vs P F IH]; [intros []|]. intros [-> | J]; auto.
  rewrite Ha in P. rewrite (nth_error_nth _ _ "" Hn) in P. congruence.
Qed.
Print Assumptions C78_list_get_error.

(** ---- list_get_hit_variable ---- *)

(** C78.  For ordinary variables: one list per variable, with the readings of the hits, in their order, each
    divided by the unit of the variable. *)
Theorem C78_columns :
  forall extra flag inv fx (w : RWorld) (b : Bunch) (vars us : list string) (val : string -> nat -> R) (size : nat -> R),
    readings extra w (b_hits b) vars val ->
    (forall v, In v vars -> amplitude_axes v = None) ->
    (us = [] /\ (forall i, size i = 1) \/
     us <> [] /\ forall i, (i < List.length vars)%nat -> exists u, nth_error us i = Some u /\ assoc units u = Some (size i)) ->
    list_get_hit_variable extra flag inv fx w b vars us =
      inr (map (fun i => map (fun l => Some (val (nth i vars "") l / size i)) (b_hits b)) (seq 0 (List.length vars))).
Proof.
  intros extra flag inv fx w b vars us val size Hr Ha Hu. unfold list_get_hit_variable.
  apply QueryProofs.all_inr_map. intros i Hi. apply in_seq in Hi. unfold column_of.
  assert (I : In (nth i vars "") vars) by (apply nth_In; lia).
  rewrite (Ha _ I). cbn [bindE fst snd]. apply QueryProofs.all_inr_map. intros l Hl.
  unfold hit_variable. rewrite (Ha _ I). destruct (Hr _ _ I Hl) as (x & G & Nx & V). rewrite G.
  assert (An : as_num x = Some (real_of x)) by (destruct x; [reflexivity|reflexivity|congruence]).
  rewrite An, V. cbn [bindE].
  destruct Hu as [(-> & Hs) | (Nu & Hs)].
  - cbn [in_unit]. rewrite Hs. f_equal. f_equal. field.
  - destruct us as [|u0 us]; [congruence|]. destruct (Hs i ltac:(lia)) as (u & U1 & U2). rewrite U1. cbn [in_unit]. rewrite U2.
    pose proof (unit_positive _ _ U2). unfold divE. destruct (Req_EM_T (size i) 0); [lra|]. reflexivity.
Qed.
Print Assumptions C78_columns.

(** C78.  If there are hits and units are given, success means that every variable has one, and a
    known one. *)
Theorem C78_units :
  forall extra flag inv fx (w : RWorld) (b : Bunch) (vars us : list string) cols,
    b_hits b <> [] -> us <> [] -> list_get_hit_variable extra flag inv fx w b vars us = inr cols ->
    forall i, (i < List.length vars)%nat -> exists u q, nth_error us i = Some u /\ assoc units u = Some q.
Proof.
  intros extra flag inv fx w b vars us cols Nb Nu E i Hi. unfold list_get_hit_variable in E. apply all_inr_forall2 in E.
  assert (Q : exists col, column_of extra flag inv fx w b (nth i vars "") (Some (nth_error us i)) = inr col).
  { assert (I2 : In i (seq 0 (List.length vars))) by (apply in_seq; lia).
    revert I2. induction E as [|x v xs vs P F IH]; [intros []|]. intros [-> | J]; auto.
    destruct us; [congruence|]. eauto. }
  destruct Q as (col & Q). unfold column_of in Q.
  match type of Q with bindE ?r _ = _ => destruct r as [|cm] end; [discriminate|]. cbn [bindE] in Q.
  destruct (b_hits b) as [|l ls]; [congruence|]. apply all_inr_forall2 in Q. inversion Q as [|? ? ? ? P F]; subst.
  destruct (hit_variable _ _ _ _ _ _ _ _ _ _) as [|x]; [discriminate|]. cbn [bindE in_unit] in P.
  destruct (nth_error us i) as [u|]; [|discriminate]. destruct (assoc units u) as [q|] eqn:U; [|discriminate]. eauto.
Qed.
Print Assumptions C78_units.

(** "A unit that does not exist is reported" is refuted: not by a bunch without hits. *)
Theorem C78_units_refuted :
  exists (vars us : list string), assoc units (nth 0 us "") = None /\
    forall extra flag inv fx (w : RWorld), list_get_hit_variable extra flag inv fx w bunch_new vars us = inr [[]].
Proof. exists ["x"], ["furlong"]. split; reflexivity. Qed.
Print Assumptions C78_units_refuted.

(** C78.  Amplitudes and ordinary variables alike: the lists hold what get_hit_variable says of each
    hit, although the covariances and means are computed once per list.  No covariances or means are stored. *)
Theorem C78_lists_agree :
  forall extra flag inv (w : RWorld) (b : Bunch) (vars : list string) cols,
    list_get_hit_variable extra flag inv no_fixed w b vars [] = inr cols ->
    Forall2 (fun v col => Forall2 (fun l x => hit_variable extra flag inv no_fixed w b v None [] l = inr x) (b_hits b) col)
      vars cols.
Proof.
  intros extra flag inv w b vars cols E. unfold list_get_hit_variable in E. apply all_inr_forall2 in E.
  assert (M : Forall2 (fun v col => column_of extra flag inv no_fixed w b v None = inr col) vars cols).
  { assert (V : vars = map (fun i => nth i vars "") (seq 0 (List.length vars))).
    { apply (nth_ext _ _ "" ""); [rewrite map_length, seq_length; auto|]. intros k Hk.
      rewrite (nth_indep (map _ _) "" (nth 0 vars "")) by (rewrite map_length, seq_length; auto).
      rewrite (map_nth (fun i => nth i vars "")), seq_nth; auto. }
    rewrite V at 1. clear V. induction E as [|i c is cs P F IH]; cbn [map]; constructor; auto. }
  revert M. apply forall2_weaken. intros v col. apply column_agrees.
Qed.
Print Assumptions C78_lists_agree.

(** C78.  The list of amplitudes of a bunch: no errors, weighted average 2n times the emittance, and none negative
    if the covariance matrix is positive definite. *)
Theorem C78_amplitudes :
  forall extra flag (inv : Matrix -> option Matrix) (w : RWorld) b name axes vars val (c ci : Matrix) (e : R),
    usable w b -> amplitude_axes name = Some (Some axes) -> covariance_list axes flag = Some vars ->
    readings extra w (b_hits b) vars val ->
    covariance_matrix extra no_fixed w b vars [] = inr c -> inv c = Some ci -> inverse_of (List.length vars) c ci ->
    bunch_get extra flag no_fixed w b "emittance" axes = inr (Some e) ->
    exists amplitude,
      list_get_hit_variable extra flag inv no_fixed w b [name] [] = inr [map (fun l => Some (amplitude l)) (b_hits b)] /\
      average w (b_hits b) amplitude = 2 * INR (List.length axes) * e /\
      (positive_definite (List.length vars) c -> 0 <= e -> forall l, In l (b_hits b) -> 0 <= amplitude l).
Proof.
  intros extra flag inv w b name axes vars val c ci e U An Hv Hr Hc Hi Ho He.
  pose proof (amplitude_nonempty _ _ An) as Na.
  destruct (C59_amplitude extra flag inv w b axes vars val c ci e U Na Hv Hr Hc Hi Ho He) as (amp & A1 & A2 & A3).
  exists amp. split; [|auto].
  destruct U as (U1 & U2 & U3).
  destruct (mean_spec extra w b vars val U1 U2 U3 Hr) as (d & D1 & _).
  assert (C : column_of extra flag inv no_fixed w b name None = inr (map (fun l => Some (amp l)) (b_hits b))).
  { unfold column_of. rewrite An, Hv, Hc. cbn [bindE]. rewrite D1. cbn [bindE fst snd].
    apply QueryProofs.all_inr_map. intros l Hl. unfold hit_variable. rewrite An.
    rewrite (amplitude_given extra flag inv w b axes vars c d l Na Hv Hc D1), (A1 l Hl). reflexivity. }
  unfold list_get_hit_variable. cbn [List.length seq map nth all_inr]. rewrite C. reflexivity.
Qed.
Print Assumptions C78_amplitudes.

(** ---- examples ---- *)

Lemma ex_two_usable : usable (wrun ex_two) ex_bunch.
Proof. split; [reflexivity|split; [reflexivity|exact ex_two_weight]]. Qed.
Lemma ex_two_yx : readings no_extra (wrun ex_two) (b_hits ex_bunch) ["y"; "x"] (stored_val (wrun ex_two)).
Proof. intros v l V L. apply ex_two_readings; auto. simpl in *; tauto. Qed.

(** The bunch of two: x = 4 and -4, y = 1 and 3. *)
Example C78_example_get :
  bunch_get no_extra false no_fixed (wrun ex_two) ex_bunch "mean" ["y"; "x"] = inr (Some 2) /\
  bunch_get no_extra false no_fixed (wrun ex_two) ex_bunch "moment" ["y"; "x"] = inr (Some (-4)) /\
  bunch_get no_extra false no_fixed (wrun ex_two) ex_bunch "standard_deviation" ["y"; "x"] = inr (Some 1) /\
  bunch_get no_extra false no_fixed (wrun ex_two) ex_bunch "bunch_weight" ["z"] = inr (Some 2) /\
  bunch_get no_extra false no_fixed (wrun ex_two) ex_bunch "weight" ["x"] = inl MKeyError.
Proof.
  destruct (C78_get_moments no_extra false (wrun ex_two) ex_bunch "y" ["x"] _ ex_two_usable ex_two_yx) as (M & C & D & W).
  assert (Nw : nonneg_weights (wrun ex_two) (b_hits ex_bunch)).
  { intros l [<- | [<- | []]]; [rewrite ex_two_w0 | rewrite ex_two_w1]; lra. }
  destruct (D Nw) as (s & S1 & S2 & S3). rewrite M, C, S2, W.
  rewrite !ex_two_average in *. cbn [rprod] in *. rewrite !ex_two_average in *.
  unfold stored_val in *. rewrite ex_two_x0, ex_two_x1, ex_two_y0, ex_two_y1 in *. cbn [real_of] in *.
  split; [do 2 f_equal; lra|]. split; [do 2 f_equal; lra|]. split; [do 2 f_equal; nra|].
  split; [rewrite ex_two_total; reflexivity|].
  apply C78_get_unknown. cbn. intuition discriminate.
Qed.

Example C78_example_twiss :
  exists e beta gamma alpha,
    bunch_get ex_extra false no_fixed (wrun ex_four) ex_bunch4 "emittance" ["x"] = inr (Some e) /\
    bunch_get ex_extra false no_fixed (wrun ex_four) ex_bunch4 "beta" ["x"] = inr (Some beta) /\
    bunch_get ex_extra false no_fixed (wrun ex_four) ex_bunch4 "gamma" ["x"] = inr (Some gamma) /\
    bunch_get ex_extra false no_fixed (wrun ex_four) ex_bunch4 "alpha" ["x"] = inr (Some alpha) /\
    beta * gamma - alpha * alpha = 1.
Proof.
  destruct C63_example as (U & L & Hr & Hm & Hp & X & P & XP & _).
  destruct (C78_get_twiss ex_extra false (wrun ex_four) ex_bunch4 "x" "px" ex_val U L Hr) as (e & beta & gamma & alpha & A & B & C & D & E & _).
  - auto.
  - rewrite X. lra.
  - rewrite X, P, XP. lra.
  - exists e, beta, gamma, alpha. auto.
Qed.

(** The bunch of hit 1 alone, and both hits: by the mean of y, both hits come first. *)
Definition ex_single : Bunch := append bunch_new 1.
Lemma ex_single_weight : has_weight (wrun ex_two) (b_hits ex_single).
Proof.
  split; [intros l [<- | []]; discriminate|]. unfold total_weight. cbn [rsum ex_single append b_hits bunch_new app].
  rewrite ex_two_w1, Rabs_right; lra.
Qed.
Example C78_example_list :
  list_get no_extra false (wrun ex_two) [(no_fixed, ex_single); (no_fixed, ex_bunch)]
    ["mean"; "bunch_weight"] [["y"]; []] = inr [[Some 2; Some 3]; [Some 2; Some 1]].
Proof.
  assert (U : usable (wrun ex_two) ex_single) by (split; [reflexivity|split; [reflexivity|exact ex_single_weight]]).
  assert (Rs : readings no_extra (wrun ex_two) (b_hits ex_single) ["y"] (stored_val (wrun ex_two))).
  { apply stored_readings; [apply ex_single_weight|]. intros v [<- | []]. vm_compute; tauto. }
  assert (Rb : readings no_extra (wrun ex_two) (b_hits ex_bunch) ["y"] (stored_val (wrun ex_two))).
  { intros v l [<- | []] L. apply ex_two_readings; simpl; auto. }
  set (val := fun (i : nat) (fb : Fixed RNum * Bunch) =>
    match i, b_hits (snd fb) with O, [_] => 3 | O, _ => 2 | _, [_] => 1 | _, _ => 2 end).
  destruct (C78_list_get no_extra false (wrun ex_two) [(no_fixed, ex_single); (no_fixed, ex_bunch)]
              ["mean"; "bunch_weight"] [["y"]; []] val) as (order & E & P & S1 & _); [discriminate| |].
  - pose proof (C78_get_moments no_extra false (wrun ex_two) ex_single "y" [] _ U Rs) as (M1 & _ & _ & W1).
    pose proof (C78_get_moments no_extra false (wrun ex_two) ex_bunch "y" [] _ ex_two_usable Rb) as (M2 & _ & _ & W2).
    intros i fb Hi. cbn [List.length] in Hi. intros [<- | [<- | []]]; (destruct i as [|[|i]]; [| |lia]);
      eexists; eexists; (split; [reflexivity|split; [reflexivity|]]); cbn [fst snd].
    + rewrite M1. unfold average, total_weight, val. cbn [rsum ex_single append b_hits bunch_new app snd]. unfold stored_val.
      rewrite ex_two_w1, ex_two_y1. cbn [real_of]. do 2 f_equal. field.
    + rewrite W1. unfold total_weight, val. cbn [rsum ex_single append b_hits bunch_new app snd]. rewrite ex_two_w1. do 2 f_equal. lra.
    + rewrite M2, ex_two_average. unfold stored_val, val. rewrite ex_two_y0, ex_two_y1. cbn [real_of b_hits ex_bunch append bunch_new app snd].
      do 2 f_equal. lra.
    + rewrite W2, ex_two_total. reflexivity.
  - rewrite E. apply Permutation_sym, Permutation_length_2_inv in P. destruct P as [-> | ->].
    + exfalso. inversion S1 as [|? ? ? F]; subst. inversion F as [|? ? Q]; subst.
      unfold val in Q. cbn in Q. lra.
    + reflexivity.
Qed.

(** x in metres, y in millimetres. *)
Example C78_example_columns :
  list_get_hit_variable no_extra false (fun _ => None) no_fixed (wrun ex_two) ex_bunch ["x"; "y"] ["m"; "mm"] =
    inr [[Some (4 / 1000); Some (-4 / 1000)]; [Some (1 / 1); Some (3 / 1)]].
Proof.
  rewrite (C78_columns no_extra false (fun _ => None) no_fixed (wrun ex_two) ex_bunch ["x"; "y"] ["m"; "mm"] (stored_val (wrun ex_two))
            (fun i => match i with O => 1000 | _ => 1 end)).
  - cbn [List.length seq map nth ex_bunch append b_hits bunch_new app]. unfold stored_val.
    rewrite ex_two_x0, ex_two_x1, ex_two_y0, ex_two_y1. reflexivity.
  - apply ex_two_readings.
  - intros v [<- | [<- | []]]; reflexivity.
  - right. split; [discriminate|]. intros i Hi. cbn [List.length] in Hi.
    destruct i as [|[|i]]; [eexists; split; reflexivity|eexists; split; reflexivity|lia].
Qed.

(** Emittance 3/10, average amplitude 6/10. *)
Example C78_example_amplitude :
  exists amplitude,
    list_get_hit_variable ex_extra false (fun _ => Some [[/ 2; 0]; [0; / 450]]) no_fixed (wrun ex_four) ex_bunch4 ["amplitude x"] [] =
      inr [map (fun l => Some (amplitude l)) (b_hits ex_bunch4)] /\
    average (wrun ex_four) (b_hits ex_bunch4) amplitude = 6 / 10 /\
    forall l, In l (b_hits ex_bunch4) -> 0 <= amplitude l.
Proof.
  destruct C59_example as (U & _ & Hr & L & C & I & E & PD).
  destruct (C78_amplitudes ex_extra false (fun _ => Some [[/ 2; 0]; [0; / 450]]) (wrun ex_four) ex_bunch4 "amplitude x" ["x"] ["x"; "px"]
    ex_val [[2; 0]; [0; 450]] [[/ 2; 0]; [0; / 450]] (3 / 10) U eq_refl L Hr C eq_refl I E) as (amp & A & B & D).
  exists amp. split; [exact A|]. split.
  - rewrite B. simpl. lra.
  - apply D; auto. lra.
Qed.

Example C78_example_optics : let w := wrun ex_disp in let b := ex_disp_bunch in
  let val := fun v l => if String.eqb v "r_squared" then stored_val w "x" l * stored_val w "x" l + stored_val w "y" l * stored_val w "y" l
                        else stored_val w v l in
  let extra := fun _ _ v l => Some (@PFloat RNum (val v l)) in
  usable w b /\ readings extra w (b_hits b) ["x"; "energy"] val /\ covariance w (b_hits b) val "energy" "energy" <> 0 /\
  In ("x", "px") (conjugates false) /\
  bunch_get extra true no_fixed w b "dispersion" ["x"; "nosuch"] = inr (Some 2).
Proof.
  intros w b val extra. destruct C69_example as (U & _ & Hr & _ & _ & V & D).
  split; [exact U|]. split; [eapply readings_sub; [exact Hr|]; intros k [<- | [<- | []]]; simpl; tauto|].
  fold w b in V. fold val in V. split; [rewrite V; lra|]. split; [simpl; tauto|].
  change (get_dispersion extra no_fixed w b "x" = inr 2) in D.
  unfold bunch_get. cbn [String.eqb Ascii.eqb Bool.eqb first_of bindE]. rewrite D. reflexivity.
Qed.
