(** Property C42: the multipole weighting. *)
From Coq Require Import Reals ZArith List Bool String Lia Lra Sorting.Sorted Permutation.
From Verif Require Import Num WeightModel HitcoreModel HitcoreSpec HitcoreProofs PyLibModel PyLibProofs BunchModel BunchSpec
  BunchProofs HitPyModel HitPySpec HitPyProofs MomentModel MomentSpec MomentProofs MomentProps StatProofs BunchNumModel CommonModel
  CommonSpec CommonProofs GridProofs EllipseModel TransformModel TransformProofs FitProofs VoronoiModel VoronoiSpec VoronoiProofs
  MultipoleModel MultipoleSpec MultipoleProofs.
Import ListNotations.
Open Scope string_scope.
Open Scope list_scope.
Open Scope R_scope.

(** ---- the targets --------------------------------------------------------------------- *)

(** C42.  set_target_moments keeps the targets, every moment with its powers, in
    lexicographic order. *)
Theorem C42_targets : forall max vars mx targets, usable_targets (List.length vars) mx targets ->
  exists s mp, set_target_moments max vars (as_ints targets) (map snd targets) = inr mp /\
    mp_max mp = max /\ mp_vars mp = vars /\ Permutation targets s /\
    mp_index mp = map (fun tg => map Z.of_nat (fst tg)) s /\ mp_target mp = map snd s /\
    (forall i j a c, (i < j)%nat -> nth_error (mp_index mp) i = Some a -> nth_error (mp_index mp) j = Some c ->
       index_ltb a c = true).
Proof.
  intros max vars mx targets U. destruct (set_target_spec max vars mx targets U) as (s & P & S & Nd & E).
  exists s. eexists. split; [exact E|]. cbn [mp_max mp_vars mp_index mp_target]. repeat split; auto.
  - rewrite zpair_keys, map_map. reflexivity.
  - apply zpair_values.
  - intros i j a c Hij Ei Ej.
    destruct (sorted_nth index_ltb (map fst (map zpair s)) (keys_sorted _ S) i j a c) as [Q|Q]; auto; try lia.
    destruct (index_ltb a c) eqn:F; auto. exfalso. assert (a = c) by (apply index_total; auto). subst c.
    rewrite NoDup_nth_error in Nd. assert (i = j); [|lia].
    apply Nd; [apply nth_error_Some; congruence|congruence].
Qed.

(** C42.  Lists of different length, powers that are not integers, lists of powers of the
    wrong length, a list that repeats the one before it, and no target at all are rejected. *)
Theorem C42_rejects : forall max vars idx ms,
  (List.length idx <> List.length ms \/ idx = [] \/
   (exists t, In t idx /\ (List.length t <> List.length vars \/ In None t)) \/
   (exists l t r, idx = l ++ t :: t :: r)) ->
  set_target_moments max vars idx ms = inl PValueError.
Proof.
  intros max vars idx ms H. unfold set_target_moments.
  destruct (Nat.eqb (List.length idx) (List.length ms)) eqn:El; [|reflexivity]. apply Nat.eqb_eq in El. cbn [negb].
  destruct (all_some _) as [items|] eqn:Ea; [|reflexivity].
  destruct H as [H|[H|[(t & I & H)|(l & t & r & H)]]].
  - contradiction.
  - subst idx. cbn in Ea. injection Ea as <-. cbn. reflexivity.
  - exfalso. clear El. revert items Ea. induction idx as [|u idx IH]; intros items Ea; [destruct I|].
    cbn [map all_some] in Ea. destruct I as [->|I].
    + destruct H as [H|H].
      * apply Nat.eqb_neq in H. rewrite H in Ea. discriminate.
      * replace (all_some t) with (@None (list Z)) in Ea; [destruct (Nat.eqb _ _); discriminate|].
        clear - H. induction t as [|[z|] t IH]; [destruct H| |reflexivity]. cbn [all_some].
        rewrite <- IH by (destruct H; [discriminate|auto]). reflexivity.
    + destruct (if Nat.eqb (List.length u) (List.length vars) then all_some u else None); [|discriminate].
      destruct (all_some (map _ idx)); [|discriminate]. eapply IH; eauto.
  - assert (A : adjacent_equal items = true).
    { clear El. subst idx. revert items Ea. induction l as [|u l IH]; intros items Ea.
      - cbn [app map all_some] in Ea. destruct (if Nat.eqb (List.length t) (List.length vars) then all_some t else None) as [z|]; [|discriminate].
        destruct (all_some (map _ r)) as [zs|]; [|discriminate]. injection Ea as <-. cbn [adjacent_equal].
        rewrite (proj2 (index_eqb_eq z z) eq_refl). reflexivity.
      - cbn [app map all_some] in Ea. destruct (if Nat.eqb (List.length u) (List.length vars) then all_some u else None) as [z|]; [|discriminate].
        destruct (all_some (map _ (l ++ t :: t :: r))) as [zs|] eqn:Ez; [|discriminate]. injection Ea as <-.
        specialize (IH zs eq_refl). destruct zs as [|y zs]; [discriminate|].
        change (adjacent_equal (z :: y :: zs)) with (index_eqb y z || adjacent_equal (y :: zs))%bool. rewrite IH. apply orb_true_r. }
    rewrite A. reflexivity.
Qed.

(** The documentation asks for unique lists of powers; repetitions that are not neighbours are
    accepted. *)
Theorem C42_unique_refuted : forall max m1 m2 m3, exists mp,
  set_target_moments max ["x"] [[Some 1]; [Some 2]; [Some 1]]%Z [m1; m2; m3] = inr mp.
Proof.
  intros max m1 m2 m3. unfold set_target_moments. cbn [List.length Nat.eqb negb map all_some adjacent_equal index_eqb Z.eqb Pos.eqb andb orb option_map].
  pose proof (sort_length item_ltb (combine [[1%Z]; [2%Z]; [1%Z]] [m1; m2; m3])) as L.
  destruct (sort item_ltb _) as [|x l]; [discriminate|]. eexists. reflexivity.
Qed.

(** C42.  The constructor asks for the mean of every variable and, as second moments, for the
    elements of the ellipse on and above the diagonal: raw moments, not moments about the
    mean. *)
Theorem C42_constructor : forall max vars ellipse mean,
  List.length mean = List.length vars -> shape (List.length vars) (List.length vars) ellipse -> vars <> [] ->
  let n := List.length vars in
  let first i := map (fun k => if Nat.eqb k i then 1 else 0)%nat (seq 0 n) in
  let second i j := powers_add (first i) (first j) in
  multipole_weighting max vars ellipse mean =
  set_target_moments max vars
    (as_ints (map (fun i => (first i, nth i mean 0)) (seq 0 n) ++
              flat_map (fun i => map (fun j => (second i j, ent ellipse i j)) (seq i (n - i))) (seq 0 n)))
    (map (fun i => nth i mean 0) (seq 0 n) ++ flat_map (fun i => map (ent ellipse i) (seq i (n - i))) (seq 0 n)).
Proof.
  intros max vars ellipse mean Lm [Le Re] Hv n first second. unfold multipole_weighting, moments_from_ellipse. fold n.
  set (T1 := map (fun i => (first i, nth i mean 0)) (seq 0 n)).
  set (T2 := flat_map (fun i => map (fun j => (second i j, ent ellipse i j)) (seq i (n - i))) (seq 0 n)).
  assert (U1 : forall i, unit_index n [i] = map (fun k => Some (Z.of_nat k)) (first i)).
  { intros i. unfold unit_index, first. rewrite map_map. apply map_ext. intros k. cbn [count_occ].
    rewrite (Nat.eqb_sym k i). destruct (Nat.eq_dec i k) as [->|N]; [rewrite Nat.eqb_refl; auto|].
    rewrite (proj2 (Nat.eqb_neq i k) N). reflexivity. }
  assert (U2 : forall i j, unit_index n [i; j] = map (fun k => Some (Z.of_nat k)) (second i j)).
  { intros i j. unfold unit_index, second, first, powers_add.
    assert (C : forall (u v : nat -> nat) l, combine (map u l) (map v l) = map (fun k => (u k, v k)) l)
      by (intros u v l; induction l as [|k l IH]; cbn [map combine]; [auto|rewrite IH; auto]).
    rewrite C, !map_map. apply map_ext. intros k. cbn [fst snd count_occ].
    rewrite (Nat.eqb_sym k i), (Nat.eqb_sym k j).
    destruct (Nat.eq_dec i k) as [->|N1]; destruct (Nat.eq_dec j k) as [->|N2]; rewrite ?Nat.eqb_refl;
      rewrite ?(proj2 (Nat.eqb_neq _ _) N1), ?(proj2 (Nat.eqb_neq _ _) N2); reflexivity. }
  assert (E : all_some (map (fun i => option_map (fun x => (unit_index n [i], x)) (nth_error mean i)) (seq 0 n) ++
      flat_map (fun i => map (fun j => match nth_error ellipse i with
        | Some row => option_map (fun x => (unit_index n [i; j], x)) (nth_error row j) | None => None end) (seq i (n - i))) (seq 0 n))
    = Some (map (fun tg => (map (fun k => Some (Z.of_nat k)) (fst tg), snd tg)) (T1 ++ T2))).
  { replace (map _ (seq 0 n) ++ flat_map _ (seq 0 n)) with
      (map Some (map (fun tg => (map (fun k => Some (Z.of_nat k)) (fst tg), snd tg)) (T1 ++ T2))).
    - generalize (map (fun tg : list nat * R => (map (fun k => Some (Z.of_nat k)) (fst tg), snd tg)) (T1 ++ T2)).
      induction l as [|x l IH]; [reflexivity|]. cbn [map all_some]. rewrite IH. reflexivity.
    - rewrite !map_app. f_equal.
      + unfold T1. rewrite !map_map. apply map_ext_in. intros i Hi. apply in_seq in Hi. cbn [fst snd].
        rewrite (nth_error_nth' mean 0) by lia. cbn [option_map]. rewrite U1. reflexivity.
      + unfold T2. assert (FM : forall l, (forall i, In i l -> (i < n)%nat) ->
          map Some (map (fun tg : list nat * R => (map (fun k => Some (Z.of_nat k)) (fst tg), snd tg))
            (flat_map (fun i => map (fun j => (second i j, ent ellipse i j)) (seq i (n - i))) l)) =
          flat_map (fun i => map (fun j => match nth_error ellipse i with
            | Some row => option_map (fun x => (unit_index n [i; j], x)) (nth_error row j) | None => None end) (seq i (n - i))) l).
        { induction l as [|i l IH]; intros Hl; [reflexivity|]. cbn [flat_map]. rewrite !map_app, IH by (intros; apply Hl; right; auto).
          f_equal. rewrite !map_map. apply map_ext_in. intros j Hj. apply in_seq in Hj. cbn [fst snd].
          pose proof (Hl i (or_introl eq_refl)) as Hi. fold n in Le.
          rewrite (nth_error_nth' ellipse []) by lia.
          assert (Lr : List.length (nth i ellipse []) = n) by (apply Re, nth_In; lia).
          rewrite (nth_error_nth' _ 0) by lia. cbn [option_map]. rewrite U2. reflexivity. }
        apply FM. intros i Hi. apply in_seq in Hi. lia. }
  rewrite E. rewrite map_map. cbn [fst]. rewrite map_map. cbn [snd]. unfold as_ints. fold T1 T2. f_equal.
  unfold T1, T2. rewrite map_app, map_map. cbn [snd]. f_equal.
  generalize (seq 0 n) as l. induction l as [|i l IH]; [reflexivity|]. cbn [flat_map]. rewrite map_app, IH, map_map. reflexivity.
Qed.

(** ---- the weights ------------------------------------------------------------------------ *)

(** C42.  apply_weights, for any number of hits, variables and targets: either numpy cannot
    invert the matrix of the moments, or there are coefficients a that solve the equations
    sum_j (<x^(i+j)> - <x^i> g_j) a_j = g_i - <x^i>, and every weight is multiplied by
    1 + sum_j a_j x^j, divided by the plain mean of these factors.  The other kind of weight,
    the coordinates and the hits that are not in the bunch stay as they were. *)
Theorem C42_weights : forall extra inv (p : list (WOp RNum)) b vars val max targets mp g,
  let w := wrun p in
  let hits := b_hits b in
  let f := raw_moment w hits vars val in
  never_switches p -> in_step b -> (forall l, In l hits -> is_hit w l) ->
  1 / 1000000000000000 <= Rabs (total_weight w hits) ->
  vars <> [] -> (forall v, In v vars -> assoc get_dbl_map v <> None) -> readings extra w hits vars val ->
  own_weights g w hits -> usable_targets (List.length vars) max targets ->
  (forall m minv, inv m = Some minv -> inverse_of (List.length targets) m minv) ->
  set_target_moments (Z.of_nat max) vars (as_ints targets) (map snd targets) = inr mp ->
  (apply_multipole extra inv mp w b g = (w, Some PLinAlg) /\ exists s, Permutation targets s /\
     inv (map (fun ig => map (fun jg => f (powers_add (fst ig) (fst jg)) - f (fst ig) * snd jg) s) s) = None) \/
  exists a, (forall t gt, In (t, gt) targets ->
      rsum (fun jg => (f (powers_add t (fst jg)) - f t * snd jg) * a (fst jg)) targets = gt - f t) /\
    let P := polynomial vars val targets a in
    let s := plain_mean hits P in
    (s = 0 /\ snd (apply_multipole extra inv mp w b g) = Some POtherErr) \/
    (s <> 0 /\ exists w', apply_multipole extra inv mp w b g = (w', None) /\
      (forall l x, In l hits -> hit_get w l (weight_name g) = Some (@PFloat RNum x) ->
         hit_get w' l (weight_name g) = Some (@PFloat RNum (x * (P l / s)))) /\
      (forall y, hit_get w' y (weight_name (negb g)) = hit_get w y (weight_name (negb g))) /\
      (forall y n, stored n -> n <> "local_weight" -> hit_get w' y n = hit_get w y n) /\
      (forall y n, is_hit w y -> (forall l, In l hits -> ~ shares_weight g w y l) -> hit_get w' y n = hit_get w y n)).
Proof.
  intros extra inv p b vars val max targets mp g w hits f Hn Hb Hh Hw Hv Hk Hr Ow Tu Hi Et.
  destruct (apply_spec extra inv w b vars val (never_switches_cur p Hn) (wf_run RNum p) Hb Hh Hw Hv Hk Hr g Ow max targets Tu Hi mp Et)
    as [L|(a & Eq & [Z|(Z & w' & E & S & A & B & C)])]; [left; exact L| |]; right; exists a; (split; [exact Eq|]).
  - left. exact Z.
  - right. split; [exact Z|]. exists w'. split; [exact E|]. split; [exact A|]. split; [exact B|]. split; [|exact C].
    intros y n St Nl. apply (sim_stored RNum w _ S); auto.
Qed.

Lemma coordinate_known v : coordinate v -> assoc get_dbl_map v <> None.
Proof.
  intros [H _]. repeat (destruct H as [<-|H]; [vm_compute; discriminate|]). destruct H.
Qed.

(** C42.  The moments after apply_weights.  With F = sum_j a_j <x^j> over the moments before
    and G = sum_j a_j g_j over the targets, the moment i becomes (g_i + <x^i> G) / (1 + F):
    the target is reached if and only if <x^i> G = g_i F. *)
Theorem C42_moments : forall extra inv (p : list (WOp RNum)) b vars max targets mp g w',
  let w := wrun p in
  let hits := b_hits b in
  let f := raw_moment w hits vars (stored_val w) in
  never_switches p -> in_step b -> (forall l, In l hits -> is_hit w l) ->
  1 / 1000000000000000 <= Rabs (total_weight w hits) ->
  vars <> [] -> (forall v, In v vars -> coordinate v) ->
  own_weights g w hits -> usable_targets (List.length vars) max targets ->
  (forall m minv, inv m = Some minv -> inverse_of (List.length targets) m minv) ->
  set_target_moments (Z.of_nat max) vars (as_ints targets) (map snd targets) = inr mp ->
  apply_multipole extra inv mp w b g = (w', None) -> total_weight w' hits <> 0 ->
  exists a, (forall t gt, In (t, gt) targets ->
      rsum (fun jg => (f (powers_add t (fst jg)) - f t * snd jg) * a (fst jg)) targets = gt - f t) /\
    let F := rsum (fun jg => a (fst jg) * f (fst jg)) targets in
    let G := rsum (fun jg => a (fst jg) * snd jg) targets in
    1 + F <> 0 /\
    forall t gt, In (t, gt) targets ->
      raw_moment w' hits vars (stored_val w') t = (gt + f t * G) / (1 + F) /\
      (raw_moment w' hits vars (stored_val w') t = gt <-> f t * G = gt * F).
Proof.
  intros extra inv p b vars max targets mp g w' w hits f Hn Hb Hh Hw Hv Hk Ow Tu Hi Et Ew Ht'.
  assert (Hr : readings extra w hits vars (stored_val w)) by (apply stored_readings; auto; intros v I; apply Hk, I).
  destruct (apply_spec extra inv w b vars (stored_val w) (never_switches_cur p Hn) (wf_run RNum p) Hb Hh Hw Hv
    (fun v I => coordinate_known v (Hk v I)) Hr g Ow max targets Tu Hi mp Et)
    as [(L & _)|(a & Eq & [(Z & EZ)|(Z & w2 & E & S & A & B & _)])].
  { rewrite Ew in L. discriminate. }
  { rewrite Ew in EZ. discriminate. }
  rewrite Ew in E. injection E as <-. exists a. split; [exact Eq|]. fold hits in Eq, A, B, Z. fold f in Eq.
  set (P := polynomial vars (stored_val w) targets a) in *. set (s := plain_mean hits P) in *.
  set (F := rsum (fun jg => a (fst jg) * f (fst jg)) targets). set (G := rsum (fun jg => a (fst jg) * snd jg) targets). cbv zeta.
  assert (Wt : forall l, In l hits -> wt w' l = wt w l * (P l / s)).
  { intros l I. destruct (weight_number w l g (Hh l I)) as (x & _ & X). apply (wt_factor w w' l g x); auto.
    - apply (sim_hit _ _ _ S). auto. }
  assert (Tw : total_weight w hits <> 0).
  { intros Q. fold hits in Hw. rewrite Q, Rabs_R0 in Hw. lra. }
  assert (AP : average w hits P = 1 + F).
  { unfold P, polynomial. rewrite (average_poly w hits targets (fun jg => a (fst jg)) (fun jg => monomial vars (stored_val w) (fst jg)) (fun _ => 1) Tw).
    f_equal. unfold average. rewrite (rsum_ext _ (wt w)) by (intros; ring). fold (total_weight w hits). field. auto. }
  assert (F1 : 1 + F <> 0).
  { intros Q. apply Ht'. unfold total_weight. rewrite (rsum_ext (wt w') (fun l => / s * (wt w l * P l))).
    - rewrite rsum_scale. replace (rsum (fun l => wt w l * P l) hits) with (average w hits P * total_weight w hits).
      + rewrite AP, Q. ring.
      + unfold average. field. auto.
    - intros l I. rewrite (Wt l I). field. auto. }
  split; [exact F1|]. intros t gt I. destruct Tu as (_ & _ & Tp). destruct (Tp t gt I) as [Lt _].
  assert (M : raw_moment w' hits vars (stored_val w') t = (gt + f t * G) / (1 + F)).
  { unfold raw_moment. rewrite (average_ext w' hits _ (monomial vars (stored_val w) t)).
    2: { intros l Il. unfold monomial. assert (Es : forall vs ts, (forall v, In v vs -> coordinate v) ->
           rprod (fun vp => stored_val w' (fst vp) l ^ snd vp) (combine vs ts) = rprod (fun vp => stored_val w (fst vp) l ^ snd vp) (combine vs ts)).
         { induction vs as [|v vs IH]; intros [|k ts] Hvs; auto. cbn [combine rprod fst snd]. rewrite IH by (intros; apply Hvs; right; auto).
           f_equal. f_equal. destruct (Hvs v (or_introl eq_refl)) as [C1 C2]. unfold stored_val.
           rewrite (sim_stored RNum w w' S l v); auto. left; auto. }
         apply Es. exact Hk. }
    rewrite (average_reweighted w w' hits P s _ Tw Z) by (try (rewrite AP; auto); auto). rewrite AP. f_equal.
    assert (Ex : average w hits (fun l => P l * monomial vars (stored_val w) t l) =
      average w hits (fun l => monomial vars (stored_val w) t l +
        rsum (fun jg => a (fst jg) * monomial vars (stored_val w) (powers_add t (fst jg)) l) targets)).
    { apply average_ext. intros l Il. unfold P, polynomial. rewrite Rmult_plus_distr_r, Rmult_1_l. f_equal.
      rewrite Rmult_comm, <- rsum_scale. apply rsum_ext. intros [t2 g2] I2. cbn [fst]. destruct (Tp t2 g2 I2) as [L2 _].
      rewrite (monomial_mult (stored_val w) l vars t t2) by auto. ring. }
    rewrite Ex, (average_poly w hits targets (fun jg => a (fst jg)) (fun jg => monomial vars (stored_val w) (powers_add t (fst jg))) (monomial vars (stored_val w) t) Tw).
    change (average w hits (monomial vars (stored_val w) t)) with (f t).
    specialize (Eq t gt I). replace gt with (rsum (fun jg => (f (powers_add t (fst jg)) - f t * snd jg) * a (fst jg)) targets + f t) by (rewrite Eq; ring).
    unfold G. rewrite <- rsum_scale.
    replace (rsum (fun jg => a (fst jg) * average w hits (monomial vars (stored_val w) (powers_add t (fst jg)))) targets) with
      (rsum (fun jg => (f (powers_add t (fst jg)) - f t * snd jg) * a (fst jg)) targets + rsum (fun jg => f t * (a (fst jg) * snd jg)) targets); [ring|].
    rewrite <- rsum_plus. apply rsum_ext. intros [t2 g2] _. cbn [fst snd]. unfold f, raw_moment. ring. }
  split; [exact M|]. rewrite M. split; intros Q.
  - apply (f_equal (fun y => y * (1 + F))) in Q. unfold Rdiv in Q. rewrite Rmult_assoc, Rinv_l, Rmult_1_r in Q by auto. lra.
  - apply (Rmult_eq_reg_r (1 + F)); auto. unfold Rdiv. rewrite Rmult_assoc, Rinv_l, Rmult_1_r by auto. lra.
Qed.

(** C42.  A single target is reached. *)
Theorem C42_single : forall extra inv (p : list (WOp RNum)) b vars max t gt mp g w',
  let w := wrun p in
  let hits := b_hits b in
  never_switches p -> in_step b -> (forall l, In l hits -> is_hit w l) ->
  1 / 1000000000000000 <= Rabs (total_weight w hits) ->
  vars <> [] -> (forall v, In v vars -> coordinate v) -> own_weights g w hits ->
  List.length t = List.length vars -> (1 <= list_sum t <= max)%nat ->
  (forall m minv, inv m = Some minv -> inverse_of 1 m minv) ->
  set_target_moments (Z.of_nat max) vars (as_ints [(t, gt)]) [gt] = inr mp ->
  apply_multipole extra inv mp w b g = (w', None) -> total_weight w' hits <> 0 ->
  raw_moment w' hits vars (stored_val w') t = gt.
Proof.
  intros extra inv p b vars max t gt mp g w' w hits Hn Hb Hh Hw Hv Hk Ow Lt St Hi Et Ew Ht'.
  destruct (C42_moments extra inv p b vars max [(t, gt)] mp g w' Hn Hb Hh Hw Hv Hk Ow) as (a & _ & _ & H); auto.
  - split; [discriminate|]. split; [repeat constructor; intros []|]. intros t' g' [E|[]]. injection E as <- <-. auto.
  - apply (H t gt); [left; auto|]. cbn [rsum fst snd]. ring.
Qed.

(** C42.  Moments that are all in the same ratio to their targets: all targets are reached. *)
Theorem C42_proportional : forall extra inv (p : list (WOp RNum)) b vars max targets mp g w' c,
  let w := wrun p in
  let hits := b_hits b in
  never_switches p -> in_step b -> (forall l, In l hits -> is_hit w l) ->
  1 / 1000000000000000 <= Rabs (total_weight w hits) ->
  vars <> [] -> (forall v, In v vars -> coordinate v) ->
  own_weights g w hits -> usable_targets (List.length vars) max targets ->
  (forall m minv, inv m = Some minv -> inverse_of (List.length targets) m minv) ->
  set_target_moments (Z.of_nat max) vars (as_ints targets) (map snd targets) = inr mp ->
  apply_multipole extra inv mp w b g = (w', None) -> total_weight w' hits <> 0 ->
  (forall t gt, In (t, gt) targets -> raw_moment w hits vars (stored_val w) t = c * gt) ->
  forall t gt, In (t, gt) targets -> raw_moment w' hits vars (stored_val w') t = gt.
Proof.
  intros extra inv p b vars max targets mp g w' c w hits Hn Hb Hh Hw Hv Hk Ow Tu Hi Et Ew Ht' Hp t gt I.
  destruct (C42_moments extra inv p b vars max targets mp g w' Hn Hb Hh Hw Hv Hk Ow Tu Hi Et Ew Ht') as (a & _ & _ & H).
  apply (H t gt I). change (wrun p) with w. fold hits. rewrite (Hp t gt I).
  rewrite (rsum_ext (fun jg => a (fst jg) * raw_moment w hits vars (stored_val w) (fst jg)) (fun jg => c * (a (fst jg) * snd jg))).
  - rewrite rsum_scale. ring.
  - intros [t2 g2] I2. cbn [fst snd]. rewrite (Hp t2 g2 I2). ring.
Qed.

(** C42.  Weighting hits of local weight 1 with local weights: the sum of the local weights
    is the number of hits. *)
Theorem C42_total : forall extra inv (p : list (WOp RNum)) b vars val max targets mp w',
  let w := wrun p in
  let hits := b_hits b in
  never_switches p -> in_step b -> (forall l, In l hits -> is_hit w l) ->
  1 / 1000000000000000 <= Rabs (total_weight w hits) ->
  vars <> [] -> (forall v, In v vars -> assoc get_dbl_map v <> None) -> readings extra w hits vars val ->
  NoDup hits -> usable_targets (List.length vars) max targets ->
  (forall m minv, inv m = Some minv -> inverse_of (List.length targets) m minv) ->
  set_target_moments (Z.of_nat max) vars (as_ints targets) (map snd targets) = inr mp ->
  (forall l, In l hits -> hit_get w l "local_weight" = Some (@PFloat RNum 1)) ->
  apply_multipole extra inv mp w b false = (w', None) ->
  rsum (stored_val w' "local_weight") hits = INR (List.length hits).
Proof.
  intros extra inv p b vars val max targets mp w' w hits Hn Hb Hh Hw Hv Hk Hr Nd Tu Hi Et H1 Ew.
  assert (Ow : own_weights false w hits) by (split; auto; intros l l' _ _ N; exact N).
  destruct (apply_spec extra inv w b vars val (never_switches_cur p Hn) (wf_run RNum p) Hb Hh Hw Hv Hk Hr false Ow max targets Tu Hi mp Et)
    as [(L & _)|(a & Eq & [(Z & EZ)|(Z & w2 & E & S & A & _)])].
  { rewrite Ew in L. discriminate. }
  { rewrite Ew in EZ. discriminate. }
  rewrite Ew in E. injection E as <-. fold hits in A, Z. set (P := polynomial vars val targets a) in *. set (s := plain_mean hits P) in *.
  rewrite (rsum_ext _ (fun l => / s * P l)).
  - rewrite rsum_scale. unfold s, plain_mean in *.
    assert (rsum P hits <> 0) by (intros Q; apply Z; rewrite Q; unfold Rdiv; ring).
    assert (INR (List.length hits) <> 0) by (intros Q; destruct hits; [apply H; reflexivity|apply not_0_INR in Q; [auto|discriminate]]).
    field. auto.
  - intros l I. unfold stored_val. change "local_weight" with (weight_name false). rewrite (A l 1 I (H1 l I)). cbn [real_of].
    toR. field. auto.
Qed.

(** ---- examples and refutations ------------------------------------------------------------ *)

(** Inverses of matrices of two rows, and of one. *)
Definition inv2 (m : Matrix) : option Matrix :=
  match m with
  | [[a; b]; [c; d]] =>
      if Req_EM_T (a * d - b * c) 0 then None
      else Some [[d / (a * d - b * c); - b / (a * d - b * c)]; [- c / (a * d - b * c); a / (a * d - b * c)]]
  | _ => None
  end.
Lemma inv2_ok : forall m minv, inv2 m = Some minv -> inverse_of 2 m minv.
Proof.
  intros m minv H. destruct m as [|[|a [|b [|]]] [|[|c [|d [|]]] [|]]]; try discriminate. cbn [inv2] in H.
  destruct (Req_EM_T (a * d - b * c) 0) as [|N]; [discriminate|]. injection H as <-.
  split; [split; auto; intros r [<-|[<-|[]]]; auto|]. exists [[1; 0]; [0; 1]]. split.
  - intros i j Hi Hj. destruct i as [|[|i]]; [| |lia]; destruct j as [|[|j]]; try lia; unfold ent; cbn; field; auto.
  - intros i j Hi Hj. destruct i as [|[|i]]; [| |lia]; destruct j as [|[|j]]; try lia; unfold ent; cbn; lra.
Qed.
Definition inv1 (m : Matrix) : option Matrix :=
  match m with [[a]] => if Req_EM_T a 0 then None else Some [[/ a]] | _ => None end.
Lemma inv1_ok : forall m minv, inv1 m = Some minv -> inverse_of 1 m minv.
Proof.
  intros m minv H. destruct m as [|[|a [|]] [|]]; try discriminate. cbn [inv1] in H.
  destruct (Req_EM_T a 0) as [|N]; [discriminate|]. injection H as <-.
  split; [split; auto; intros r [<-|[]]; auto|]. exists [[1]]. split; intros [|i] [|j] Hi Hj; try lia; unfold ent; cbn; [field; auto|lra].
Qed.

(** Three hits at x = -1, 0 and 1. *)
Definition ex_three : list (WOp RNum) :=
  [ WNew; WNew; WNew; WSet 0 "x" (@PFloat RNum (-1)); WSet 1 "x" (@PFloat RNum 0); WSet 2 "x" (@PFloat RNum 1);
    WSet 0 "particle_number" (PInt 1); WSet 1 "particle_number" (PInt 2); WSet 2 "particle_number" (PInt 3) ].
Definition ex_three_bunch : Bunch := append (append (append bunch_new 0) 1) 2.
Lemma ex_three_hits : forall l, In l (b_hits ex_three_bunch) -> is_hit (wrun ex_three) l.
Proof. intros l [<-|[<-|[<-|[]]]]; discriminate. Qed.
Lemma ex_three_wt l : In l (b_hits ex_three_bunch) -> wt (wrun ex_three) l = 1.
Proof.
  intros [<-|[<-|[<-|[]]]]; unfold wt;
  match goal with |- context [hit_get ?w ?l ?n] => replace (hit_get w l n) with (Some (@PFloat RNum (1 * 1))) by reflexivity end; cbn; lra.
Qed.
Lemma ex_three_local l : In l (b_hits ex_three_bunch) -> hit_get (wrun ex_three) l "local_weight" = Some (@PFloat RNum 1).
Proof. intros [<-|[<-|[<-|[]]]]; reflexivity. Qed.
Lemma ex_three_total : total_weight (wrun ex_three) (b_hits ex_three_bunch) = 3.
Proof. unfold total_weight. cbn [ex_three_bunch append b_hits bunch_new app rsum]. rewrite !ex_three_wt by (cbn; tauto). lra. Qed.
Lemma ex_three_moment k : raw_moment (wrun ex_three) (b_hits ex_three_bunch) ["x"] (stored_val (wrun ex_three)) [k] =
  ((-1) ^ k + 0 ^ k + 1 ^ k) / 3.
Proof.
  unfold raw_moment, average. rewrite ex_three_total. f_equal.
  rewrite (rsum_ext _ (fun l => monomial ["x"] (stored_val (wrun ex_three)) [k] l)) by (intros l I; rewrite ex_three_wt by auto; ring).
  cbn [ex_three_bunch append b_hits bunch_new app rsum]. unfold monomial. cbn [combine rprod fst snd]. unfold stored_val.
  replace (hit_get (wrun ex_three) 0 "x") with (Some (@PFloat RNum (-1))) by reflexivity.
  replace (hit_get (wrun ex_three) 1 "x") with (Some (@PFloat RNum 0)) by reflexivity.
  replace (hit_get (wrun ex_three) 2 "x") with (Some (@PFloat RNum 1)) by reflexivity. cbn [real_of]. ring.
Qed.
Lemma ex_three_own g : own_weights g (wrun ex_three) (b_hits ex_three_bunch).
Proof.
  split; [repeat constructor; cbn; intuition discriminate|].
  intros l l' H H' N. destruct g; [|exact N]. unfold shares_weight.
  destruct H as [<-|[<-|[<-|[]]]], H' as [<-|[<-|[<-|[]]]]; try congruence; vm_compute; discriminate.
Qed.
Lemma ex_three_weight : 1 / 1000000000000000 <= Rabs (total_weight (wrun ex_three) (b_hits ex_three_bunch)).
Proof. rewrite ex_three_total, Rabs_right; lra. Qed.
Lemma x_coordinate : forall v, In v ["x"] -> coordinate v.
Proof. intros v [<-|[]]. split; [vm_compute; tauto|discriminate]. Qed.

(** The constructor of the class with maximum pole 2, variable x, mean 1/4 and <x^2> = 1/2: the
    hits -1, 0, 1 are weighted to a mean of 6/19, not 1/4, although weights that reach both
    targets exist and the equations can be solved. *)
Theorem C42_several_refuted : forall extra, exists mp w',
  multipole_weighting 2 ["x"] [[1 / 2]] [1 / 4] = inr mp /\
  apply_multipole extra inv2 mp (wrun ex_three) ex_three_bunch false = (w', None) /\
  raw_moment w' (b_hits ex_three_bunch) ["x"] (stored_val w') [1%nat] = 6 / 19.
Proof.
  intros extra. set (targets := [([1%nat], 1 / 4); ([2%nat], 1 / 2)]).
  assert (Tu : usable_targets (List.length ["x"]) 2 targets).
  { split; [discriminate|]. split; [repeat constructor; cbn; intuition discriminate|].
    intros t g [E|[E|[]]]; injection E as <- <-; cbn; lia. }
  destruct (set_target_spec 2 ["x"] 2 targets Tu) as (so & _ & _ & _ & Es). eexists.
  assert (Hr : readings extra (wrun ex_three) (b_hits ex_three_bunch) ["x"] (stored_val (wrun ex_three))).
  { apply stored_readings; [exact ex_three_hits|]. intros v I. apply x_coordinate, I. }
  assert (Hk : forall v, In v ["x"] -> assoc get_dbl_map v <> None) by (intros v I; apply coordinate_known, x_coordinate, I).
  assert (Cur : w_cur (wrun ex_three) = 0%nat) by reflexivity.
  destruct (apply_spec extra inv2 (wrun ex_three) ex_three_bunch ["x"] (stored_val (wrun ex_three)) Cur (wf_run RNum ex_three)
    eq_refl ex_three_hits ex_three_weight ltac:(discriminate) Hk Hr false (ex_three_own false) 2 targets Tu inv2_ok _ Es)
    as [(_ & s & Ps & Ni)|(a & Eq & Rest)].
  { exfalso. apply Permutation_length_2_inv in Ps. destruct Ps as [-> | ->]; cbn [map fst snd powers_add combine Nat.add inv2] in Ni;
      rewrite !ex_three_moment in Ni; cbn [pow] in Ni; destruct (Req_EM_T _ 0) as [Q|Q]; try discriminate; lra. }
  pose proof (Eq [1%nat] (1 / 4) (or_introl eq_refl)) as E1. pose proof (Eq [2%nat] (1 / 2) (or_intror (or_introl eq_refl))) as E2.
  unfold targets in E1, E2. cbn [rsum fst snd powers_add combine map Nat.add] in E1, E2. rewrite !ex_three_moment in E1, E2. cbn [pow] in E1, E2.
  assert (A1 : a [1%nat] = 3 / 8) by lra. assert (A2 : a [2%nat] = - 5 / 16) by lra.
  set (P := polynomial ["x"] (stored_val (wrun ex_three)) targets a) in *. cbv zeta in Rest.
  assert (PM : plain_mean (b_hits ex_three_bunch) P = 19 / 24).
  { unfold plain_mean, P, polynomial, targets. cbn [ex_three_bunch append b_hits bunch_new app rsum fst snd List.length].
    rewrite A1, A2. unfold monomial. cbn [combine rprod fst snd]. unfold stored_val.
    replace (hit_get (wrun ex_three) 0 "x") with (Some (@PFloat RNum (-1))) by reflexivity.
    replace (hit_get (wrun ex_three) 1 "x") with (Some (@PFloat RNum 0)) by reflexivity.
    replace (hit_get (wrun ex_three) 2 "x") with (Some (@PFloat RNum 1)) by reflexivity. cbn [real_of INR]. field. }
  destruct Rest as [(Z & _)|(Z & w' & E & S & A & B & _)]; [lra|]. exists w'.
  split; [rewrite <- Es; reflexivity|]. split; [exact E|].
  assert (Ht : total_weight w' (b_hits ex_three_bunch) <> 0).
  { unfold total_weight. rewrite (rsum_ext _ (fun l => P l / (19 / 24))).
    - replace (rsum (fun l => P l / (19 / 24)) (b_hits ex_three_bunch)) with 3; [lra|].
      unfold Rdiv at 1. rewrite (rsum_ext _ (fun l => / (19 / 24) * P l)) by (intros; unfold Rdiv; ring). rewrite rsum_scale.
      unfold plain_mean in PM. cbn [ex_three_bunch append b_hits bunch_new app List.length INR] in PM.
      cbn [ex_three_bunch append b_hits bunch_new app]. lra.
    - intros l I. rewrite (wt_factor (wrun ex_three) w' l false 1 (P l / (19 / 24))).
      + rewrite ex_three_wt by auto. ring.
      + apply ex_three_hits, I.
      + apply (sim_hit _ _ _ S), ex_three_hits, I.
      + apply ex_three_local, I.
      + rewrite <- PM. apply A; [exact I|apply ex_three_local, I].
      + apply B. }
  assert (Ns : never_switches ex_three) by (repeat constructor).
  destruct (C42_moments extra inv2 ex_three ex_three_bunch ["x"] 2 targets _ false w' Ns eq_refl ex_three_hits ex_three_weight
    ltac:(discriminate) x_coordinate (ex_three_own false) Tu inv2_ok Es E Ht) as (a' & Eq' & N & M).
  destruct (M [1%nat] (1 / 4) (or_introl eq_refl)) as [-> _].
  pose proof (Eq' [1%nat] (1 / 4) (or_introl eq_refl)) as E1'. pose proof (Eq' [2%nat] (1 / 2) (or_intror (or_introl eq_refl))) as E2'.
  unfold targets in *. cbn [rsum fst snd powers_add combine map Nat.add] in E1', E2', N |- *. rewrite !ex_three_moment in *. cbn [pow] in *.
  assert (A1' : a' [1%nat] = 3 / 8) by lra. assert (A2' : a' [2%nat] = - 5 / 16) by lra. rewrite A1', A2'. field.
Qed.

(** ---- maximum pole 1 ---- *)
Lemma all_okP_fails {A B} (h : A -> PErr + B) l x : In x l -> h x = inl PIndexError ->
  (forall y e, In y l -> h y = inl e -> e = PIndexError) -> all_okP (map h l) = inl PIndexError.
Proof.
  induction l as [|y l IH]; intros I Hx Ha; [destruct I|]. cbn [map all_okP]. destruct (h y) as [e|v] eqn:Ey.
  - rewrite (Ha y e (or_introl eq_refl) Ey). reflexivity.
  - destruct I as [->|I]; [congruence|]. rewrite (IH I Hx) by (intros z e Iz; apply Ha; right; auto). reflexivity.
Qed.
Lemma m_entry_error mp f g i j e : m_entry mp f g i j = inl e -> e = PIndexError.
Proof. unfold m_entry. destruct (f _), (f i), (g j); congruence. Qed.
Lemma all_okP_error {A} (l : list (PErr + A)) e : all_okP l = inl e -> In (inl e) l.
Proof.
  induction l as [|[e'|x] l IH]; cbn [all_okP]; intros H; [discriminate| |].
  - injection H as ->. left; auto.
  - right. destruct (all_okP l); [|discriminate]. apply IH. congruence.
Qed.
Lemma in_all_some {A} (l : list (option A)) : forall r, all_some l = Some r -> l = map Some r.
Proof.
  induction l as [|[x|] l IH]; intros r H; cbn [all_some] in H; [injection H as <-; auto| |discriminate].
  destruct (all_some l) as [r'|]; [|discriminate]. injection H as <-. cbn [map]. rewrite (IH r' eq_refl) at 1. reflexivity.
Qed.
Lemma map_fst_combine_eq {A B} (l : list A) : forall m : list B, List.length l = List.length m -> map fst (combine l m) = l.
Proof. induction l as [|x l IH]; intros [|y m] H; cbn in *; try discriminate; auto. rewrite IH by lia. reflexivity. Qed.
Lemma set_target_index max vars idx ms mp : set_target_moments max vars idx ms = inr mp ->
  mp_max mp = max /\ mp_vars mp = vars /\ forall t, In (map Some t) idx -> In t (mp_index mp).
Proof.
  unfold set_target_moments. destruct (Nat.eqb_spec (List.length idx) (List.length ms)) as [L|]; [|discriminate]. cbn [negb].
  destruct (all_some _) as [items|] eqn:E; [|discriminate]. destruct (adjacent_equal items); [discriminate|].
  pose proof (sort_perm item_ltb (combine items ms)) as P. destruct (sort item_ltb _) as [|x s]; [discriminate|].
  intros H. injection H as <-. split; [auto|]. split; [auto|]. intros t It. cbn [mp_index].
  change (fst x :: map fst s) with (map fst (x :: s)).
  apply (Permutation_in _ (Permutation_sym (Permutation_map fst P))).
  apply in_all_some in E. assert (Li : List.length items = List.length ms).
  { apply (f_equal (@List.length _)) in E. rewrite !map_length in E. lia. }
  rewrite map_fst_combine_eq by exact Li.
  apply (in_map (fun item => if Nat.eqb (List.length item) (List.length vars) then all_some item else None)) in It.
  rewrite E in It. apply in_map_iff in It. destruct It as (t' & Et & I'). destruct (Nat.eqb _ _); [|discriminate].
  symmetry in Et. apply in_all_some in Et. apply (f_equal (map (fun o => match o with Some z => z | None => 0%Z end))) in Et.
  rewrite !map_map, !map_id in Et. subst. exact I'.
Qed.
Lemma beyond_all sf z key : (forall k x, In (k, x) sf -> exists t, k = map Z.of_nat t /\ List.length t = S (List.length key) /\ (list_sum t <= 2)%nat) ->
  (2 < z)%Z -> StronglySorted (le item_ltb) sf -> find_moment (map fst sf) (map snd sf) (z :: key) = inl PIndexError.
Proof.
  intros Hs Hz S. unfold find_moment.
  destruct (bisect_left_spec index_ltb index_order (map fst sf) (z :: key) (keys_sorted sf S)) as (Hle & _ & Hge).
  destruct (nth_error (map snd sf) _) as [x|] eqn:E; [|reflexivity]. exfalso.
  assert (Hlt : (bisect_left index_ltb (map fst sf) (z :: key) < List.length (map snd sf))%nat) by (apply nth_error_Some; congruence).
  rewrite map_length in Hlt. destruct (nth_error sf (bisect_left index_ltb (map fst sf) (z :: key))) as [[k y]|] eqn:Ek.
  2: { apply nth_error_None in Ek. lia. }
  pose proof (map_nth_error fst _ _ Ek) as Ek'. cbn [fst] in Ek'.
  pose proof (Hge _ _ (Nat.le_refl _) Ek') as F. apply nth_error_In in Ek. destruct (Hs k y Ek) as (t & -> & Lt & St).
  destruct t as [|a t]; [discriminate|]. cbn in St. unfold index_ltb in F. cbn [map lex_ltb] in F.
  destruct (Z.eqb_spec (Z.of_nat a) z); [lia|]. apply Z.ltb_ge in F. lia.
Qed.

(** A pole of 1 -- the lowest -- is not usable: the constructor asks for second moments too,
    and every call of apply_weights fails. *)
Theorem C42_pole_one_refuted : forall extra inv (p : list (WOp RNum)) b vars val ellipse mean mp g,
  let w := wrun p in
  never_switches p -> in_step b -> (forall l, In l (b_hits b) -> is_hit w l) ->
  1 / 1000000000000000 <= Rabs (total_weight w (b_hits b)) ->
  vars <> [] -> (forall v, In v vars -> assoc get_dbl_map v <> None) -> readings extra w (b_hits b) vars val ->
  List.length mean = List.length vars -> shape (List.length vars) (List.length vars) ellipse ->
  multipole_weighting 1 vars ellipse mean = inr mp ->
  apply_multipole extra inv mp w b g = (w, Some PIndexError).
Proof.
  intros extra inv p b vars val ellipse mean mp g w Hn Hb Hh Hw Hv Hk Hr Lm Sh Ec.
  rewrite C42_constructor in Ec by auto. cbv zeta in Ec. destruct (set_target_index _ _ _ _ _ Ec) as (Em & Ev & Hin).
  destruct (setup_spec extra w b vars val (never_switches_cur p Hn) Hb Hh Hw Hv Hk Hr mp 1 Ev Em (le_n _)) as (sf & Es & S & _ & Ht & _).
  destruct vars as [|v vars]; [congruence|]. set (key := map (fun _ => 0%Z) (seq 1 (List.length vars))).
  assert (Lk : List.length key = List.length vars) by (unfold key; rewrite map_length, seq_length; auto).
  assert (I2 : In (2%Z :: key) (mp_index mp)).
  { apply Hin. unfold as_ints. rewrite map_app. apply in_or_app. right. apply in_map_iff.
    set (fst0 := map (fun k => if Nat.eqb k 0 then 1 else 0)%nat (seq 0 (List.length (v :: vars)))).
    exists (powers_add fst0 fst0, ent ellipse 0 0). split.
    - cbn [fst]. unfold fst0. cbn [List.length seq map Nat.eqb]. unfold powers_add, key. cbn [combine map fst snd Nat.add Z.of_nat].
      f_equal.
      assert (G : forall l, (forall k, In k l -> k <> 0%nat) ->
        map (fun k => Some (Z.of_nat k)) (map (fun q => (fst q + snd q)%nat)
          (combine (map (fun k => if Nat.eqb k 0 then 1 else 0)%nat l) (map (fun k => if Nat.eqb k 0 then 1 else 0)%nat l)))
        = map Some (map (fun _ => 0%Z) l)).
      { induction l as [|k l IH]; intros Hl; [reflexivity|]. cbn [map combine fst snd].
        rewrite IH by (intros; apply Hl; right; auto). destruct (Nat.eqb_spec k 0) as [->|]; [exfalso; apply (Hl 0%nat); [left|]; auto|reflexivity]. }
      apply G. intros k Ik. apply in_seq in Ik. lia.
    - apply in_flat_map. exists 0%nat. split; [left; reflexivity|]. apply in_map_iff. exists 0%nat. split; [reflexivity|].
      apply in_seq. cbn [List.length]. lia. }
  unfold apply_multipole, coefficients. rewrite Es.
  assert (Bad : find_moment (map fst sf) (map snd sf) (index_add (2%Z :: key) (2%Z :: key)) = inl PIndexError).
  { unfold index_add. cbn [combine map fst snd Z.add]. change (2 + 2)%Z with 4%Z. apply beyond_all; auto; [|lia].
    intros k x I. destruct (Ht k x I) as (t & -> & Lt & St). exists t. split; auto. split; [|exact St].
    rewrite Lt, map_length, combine_length, Nat.min_id, Lk. reflexivity. }
  rewrite (all_okP_fails _ _ (2%Z :: key) I2).
  - reflexivity.
  - apply (all_okP_fails _ _ (2%Z :: key) I2); [unfold m_entry; rewrite Bad; reflexivity|].
    intros y e _. apply m_entry_error.
  - intros y e _ H. apply all_okP_error, in_map_iff in H. destruct H as (z & H & _). apply m_entry_error in H. exact H.
Qed.

(** The three hits and the single target <x> = 1/4: the hypotheses of C42_single and C42_total
    are met, and the mean comes out as asked for. *)
Example C42_single_case : forall extra, exists mp w',
  set_target_moments 1 ["x"] (as_ints [([1%nat], 1 / 4)]) [1 / 4] = inr mp /\
  apply_multipole extra inv1 mp (wrun ex_three) ex_three_bunch false = (w', None) /\
  hit_get w' 0 "local_weight" = Some (@PFloat RNum (1 * ((1 - 3 / 8) / 1))) /\
  raw_moment w' (b_hits ex_three_bunch) ["x"] (stored_val w') [1%nat] = 1 / 4.
Proof.
  intros extra. set (targets := [([1%nat], 1 / 4)]).
  assert (Tu : usable_targets (List.length ["x"]) 1 targets).
  { split; [discriminate|]. split; [repeat constructor; cbn; intuition discriminate|].
    intros t g [E|[]]; injection E as <- <-; cbn; lia. }
  destruct (set_target_spec 1 ["x"] 1 targets Tu) as (so & _ & _ & _ & Es). eexists.
  assert (Hr : readings extra (wrun ex_three) (b_hits ex_three_bunch) ["x"] (stored_val (wrun ex_three))).
  { apply stored_readings; [exact ex_three_hits|]. intros v I. apply x_coordinate, I. }
  assert (Hk : forall v, In v ["x"] -> assoc get_dbl_map v <> None) by (intros v I; apply coordinate_known, x_coordinate, I).
  assert (Ns : never_switches ex_three) by (repeat constructor).
  destruct (C42_weights extra inv1 ex_three ex_three_bunch ["x"] (stored_val (wrun ex_three)) 1 targets _ false Ns eq_refl ex_three_hits
    ex_three_weight ltac:(discriminate) Hk Hr (ex_three_own false) Tu inv1_ok Es)
    as [(_ & s & Ps & Ni)|(a & Eq & Rest)].
  { exfalso. apply Permutation_length_1_inv in Ps. subst s. cbn [map fst snd powers_add combine Nat.add inv1] in Ni.
    rewrite !ex_three_moment in Ni; cbn [pow] in Ni; destruct (Req_EM_T _ 0) as [Q|Q]; try discriminate; lra. }
  pose proof (Eq [1%nat] (1 / 4) (or_introl eq_refl)) as E1.
  unfold targets in E1. cbn [rsum fst snd powers_add combine map Nat.add] in E1. rewrite !ex_three_moment in E1. cbn [pow] in E1.
  assert (A1 : a [1%nat] = 3 / 8) by lra.
  set (P := polynomial ["x"] (stored_val (wrun ex_three)) targets a) in *. cbv zeta in Rest.
  assert (PV : P 0%nat = 1 - 3 / 8 /\ P 1%nat = 1 /\ P 2%nat = 1 + 3 / 8).
  { unfold P, polynomial, targets. cbn [rsum fst snd]. rewrite A1. unfold monomial. cbn [combine rprod fst snd]. unfold stored_val.
    replace (hit_get (wrun ex_three) 0 "x") with (Some (@PFloat RNum (-1))) by reflexivity.
    replace (hit_get (wrun ex_three) 1 "x") with (Some (@PFloat RNum 0)) by reflexivity.
    replace (hit_get (wrun ex_three) 2 "x") with (Some (@PFloat RNum 1)) by reflexivity. cbn [real_of]. repeat split; ring. }
  destruct PV as (P0 & P1 & P2).
  assert (PM : plain_mean (b_hits ex_three_bunch) P = 1).
  { unfold plain_mean. cbn [ex_three_bunch append b_hits bunch_new app rsum List.length INR]. rewrite P0, P1, P2. field. }
  rewrite PM in Rest. destruct Rest as [(Z & _)|(Z & w' & E & A & B & C & _)]; [lra|]. exists w'.
  split; [exact Es|]. split; [exact E|]. split.
  { rewrite <- P0. apply (A 0%nat 1); [left; reflexivity|reflexivity]. }
  assert (Ht : total_weight w' (b_hits ex_three_bunch) <> 0).
  { assert (W : forall l, In l (b_hits ex_three_bunch) -> wt w' l = P l).
    { intros l I. rewrite (wt_factor (wrun ex_three) w' l false 1 (P l / 1)).
      - rewrite ex_three_wt by auto. field.
      - apply ex_three_hits, I.
      - intros Q. assert (G : hit_get w' l "local_weight" = Some (@PFloat RNum (1 * (P l / 1)))) by (apply A; [exact I|apply ex_three_local, I]).
        unfold hit_get in G. rewrite Q in G. discriminate.
      - apply ex_three_local, I.
      - apply A; [exact I|apply ex_three_local, I].
      - apply B. }
    unfold total_weight. rewrite (rsum_ext _ P) by (intros; apply W; auto).
    cbn [ex_three_bunch append b_hits bunch_new app rsum]. rewrite P0, P1, P2. lra. }
  apply (C42_single extra inv1 ex_three ex_three_bunch ["x"] 1 [1%nat] (1 / 4) _ false w' Ns eq_refl ex_three_hits ex_three_weight
    ltac:(discriminate) x_coordinate (ex_three_own false) eq_refl ltac:(cbn; lia) inv1_ok Es E Ht).
Qed.

(** The targets are sorted by their powers, together with their moments. *)
Example C42_targets_case :
  set_target_moments 2 ["x"; "px"] (as_ints [([1; 0]%nat, 3); ([0; 1]%nat, 5)]) [3; 5] =
  inr (mkMp 2 ["x"; "px"] [[0; 1]; [1; 0]]%Z [5; 3]).
Proof. reflexivity. Qed.
Example C42_rejects_case : set_target_moments 2 ["x"] [[Some 1]; [None]]%Z [0; 0] = inl PValueError.
Proof. reflexivity. Qed.
(** The constructor of the class for x and px. *)
Example C42_constructor_case : exists mp, multipole_weighting 1 ["x"; "px"] [[4; 1]; [1; 9]] [2; 3] = inr mp /\
  mp_index mp = [[0; 1]; [0; 2]; [1; 0]; [1; 1]; [2; 0]]%Z /\ mp_target mp = [3; 9; 2; 1; 4].
Proof. eexists. split; [reflexivity|]. split; reflexivity. Qed.

Print Assumptions C42_targets.
Print Assumptions C42_rejects.
Print Assumptions C42_unique_refuted.
Print Assumptions C42_constructor.
Print Assumptions C42_weights.
Print Assumptions C42_moments.
Print Assumptions C42_single.
Print Assumptions C42_proportional.
Print Assumptions C42_total.
Print Assumptions C42_several_refuted.
Print Assumptions C42_pole_one_refuted.
