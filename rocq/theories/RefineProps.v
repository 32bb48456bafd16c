(** C76: refining estimated peaks with a quadratic fit. *)
From Coq Require Import Reals ZArith Lia Lra Psatz List Bool.
From Verif Require Import HitPyModel HitPySpec HitPyProofs CommonModel AlgoModel RefineModel RefineSpec RefineProofs.
Import ListNotations.
Open Scope R_scope.

(** The data used below: a single high point at index 6, a parabola around index 14. *)
Definition ex_data : list R := [0; 0; 0; 1; 0; 0; 100; 0; 0; 0; 0; 7; 12; 15; 16; 15; 12; 7; 0; 0].
Definition unit_cov (pts : list (R * R)) (i j : nat) : R := if Nat.eqb i j then 1 else 0.

Lemma ex_m : Z.min (Z.of_nat (length ex_data)) 4 = 4%Z. Proof. reflexivity. Qed.
Lemma ex_chosen fit peak q : q < 1 -> chosen fit ex_data peak 2 4 q = 2%Z.
Proof.
  intros Q. destruct (chosen_radius fit ex_data peak 2 4 q Q ltac:(lia)) as (k & -> & L & _).
  destruct k as [|k]; [reflexivity|]. exfalso. rewrite Nat2Z.inj_succ, Z.pow_succ_r in L by lia.
  assert (1 <= 2 ^ Z.of_nat k)%Z by (apply (Z.pow_le_mono_r 2 0); lia). lia.
Qed.
Lemma ex_good_fit fit : fits fit -> fit (window ex_data 14 2) = (16, 0, -1).
Proof.
  intros F. apply exact_fit; auto; try (cbn; lia). intros i I N.
  assert (K : In i [12; 13; 14; 15; 16]%nat) by (cbn; lia).
  cbn in K. repeat (destruct K as [<- | K]; [cbn; unfold parabola; lra|]). destruct K.
Qed.
Lemma ex_bad_fit fit : fits fit -> fit (window ex_data 4 2) = (-288 / 35, 199 / 10, 199 / 14).
Proof.
  intros F.
  destruct (three_abscissas ex_data 4 2 ltac:(lia) ltac:(cbn; lia) ltac:(lia)) as (I1 & I2 & I3).
  apply (least_unique (window ex_data 4 2) _ _ (-1) 0 1); auto; try lra.
  change (window ex_data 4 2) with [(-2, 0); (-1, 1); (0, 0); (1, 0); (2, 100)].
  unfold normal. cbn [total]. unfold res, parabola. cbn [fst snd]. repeat split; field.
Qed.
Lemma ex_bite_good : bite ex_data 14 2 2 = [12; 15; 16; 15]. Proof. reflexivity. Qed.
Lemma ex_bite_bad : bite ex_data 4 2 2 = [0; 1; 0; 0]. Proof. reflexivity. Qed.
Lemma ex_good_quality fit : fits fit -> peak_fit fit ex_data 14 2 2 = inr (quality fit ex_data 14 2 2).
Proof.
  intros F. rewrite peak_fit_quality by (cbn; lia). destruct (Req_EM_T _ 0) as [E|E]; auto.
  exfalso. rewrite ex_bite_good in E. apply deviation_flat in E; [|discriminate].
  specialize (E 12 15 ltac:(cbn; auto) ltac:(cbn; auto)). lra.
Qed.
Lemma ex_bad_quality fit : fits fit -> peak_fit fit ex_data 4 2 2 = inr (quality fit ex_data 4 2 2) /\ 1 <= quality fit ex_data 4 2 2.
Proof.
  intros F. split.
  - rewrite peak_fit_quality by (cbn; lia). destruct (Req_EM_T _ 0) as [E|E]; auto.
    exfalso. rewrite ex_bite_bad in E. apply deviation_flat in E; [|discriminate].
    specialize (E 0 1 ltac:(cbn; auto) ltac:(cbn; auto)). lra.
  - unfold quality. rewrite (ex_bad_fit fit F), ex_bite_bad.
    change (window ex_data 4 2) with [(-2, 0); (-1, 1); (0, 0); (1, 0); (2, 100)]. cbn [map fst snd]. unfold parabola.
    assert (D1 : 15 <= deviation [0 - (-288 / 35 + 199 / 10 * -2 + 199 / 14 * -2 * -2); 1 - (-288 / 35 + 199 / 10 * -1 + 199 / 14 * -1 * -1);
       0 - (-288 / 35 + 199 / 10 * 0 + 199 / 14 * 0 * 0); 0 - (-288 / 35 + 199 / 10 * 1 + 199 / 14 * 1 * 1);
       100 - (-288 / 35 + 199 / 10 * 2 + 199 / 14 * 2 * 2)]).
    { unfold deviation, mean. cbn [map sum_of fold_right length INR]. rewrite <- (sqrt_square 15) by lra. apply sqrt_le_1_alt.
      match goal with |- _ <= ?b => replace b with (82044 / 350) by field end. lra. }
    assert (D2 : deviation [0; 1; 0; 0] <= 1).
    { unfold deviation, mean. cbn [map sum_of fold_right length INR]. apply (Rle_trans _ (sqrt 1)); [|rewrite sqrt_1; lra]. apply sqrt_le_1_alt.
      match goal with |- ?b <= _ => replace b with (3 / 16) by field end. lra. }
    assert (D3 : 0 < deviation [0; 1; 0; 0]).
    { unfold deviation, mean. cbn [map sum_of fold_right length INR]. apply sqrt_lt_R0.
      match goal with |- _ < ?b => replace b with (3 / 16) by field end. lra. }
    assert (S2 : 1 <= sqrt 2) by (rewrite <- sqrt_1; apply sqrt_le_1_alt; lra).
    set (a := deviation _) in *. set (b := deviation [0; 1; 0; 0]) in *.
    assert (15 <= a / b). { apply (Rmult_le_reg_r b); auto. unfold Rdiv. rewrite Rmult_assoc, Rinv_l by lra. nra. }
    nra.
Qed.

(** The quality of the fit with a radius: the standard deviation of the residuals over that of the
    data near the peak, minus 1, times the root of the number of points; ZeroDivisionError if
    those data are all equal. *)
Theorem C76_quality : forall fit data peak d b, (0 <= peak < Z.of_nat (length data))%Z -> (0 <= b <= d)%Z ->
  (forall q, peak_fit fit data peak d b = inr q <->
     bite data peak d b <> [] /\ ~ flat (bite data peak d b) /\ q = quality fit data peak d b) /\
  (bite data peak d b = [] \/ flat (bite data peak d b) <-> peak_fit fit data peak d b = inl FZeroDivision).
Proof.
  intros fit data peak d b P Q. rewrite peak_fit_quality by auto.
  destruct (bite data peak d b) as [|x l] eqn:EB.
  - rewrite deviation_nil. destruct (Req_EM_T 0 0); [|contradiction]. split; [intros q; split; [discriminate|intros (N & _); congruence]|split; auto].
  - pose proof (deviation_flat (x :: l) ltac:(discriminate)) as D.
    destruct (Req_EM_T (deviation (x :: l)) 0) as [E|E]; split.
    + intros q. split; [discriminate|intros (_ & N & _); exfalso; apply N, D, E].
    + split; auto. intros _. right. apply D, E.
    + intros q. split; [intros H; injection H as <-; repeat split; [discriminate|rewrite <- D; exact E]|intros (_ & _ & ->); reflexivity].
    + split; [intros [A|A]; [discriminate|exfalso; apply E, D, A]|discriminate].
Qed.
Print Assumptions C76_quality.

(** The data compared with are not always those around the peak: they are not when the window is
    cut short by the start of the data, where data that vary make for a ZeroDivisionError. *)
Theorem C76_bite_refuted : ~ (forall fit data peak d b, (0 <= peak < Z.of_nat (length data))%Z -> (0 < b <= d)%Z ->
  peak_fit fit data peak d b = inl FZeroDivision ->
  forall i j, (i < length data)%nat -> (j < length data)%nat ->
    (peak - b <= Z.of_nat i < peak + b)%Z -> (peak - b <= Z.of_nat j < peak + b)%Z -> datum data i = datum data j).
Proof.
  intros H. specialize (H best [0; 5; 1; 1; 1; 1] 1%Z 4%Z 2%Z ltac:(cbn; lia) ltac:(lia)).
  assert (E : peak_fit best [0; 5; 1; 1; 1; 1] 1 4 2 = inl FZeroDivision).
  { apply C76_quality; [cbn; lia|lia|]. right. change (bite [0; 5; 1; 1; 1; 1] 1 4 2) with [1; 1; 1; 1].
    intros a b A B. cbn in A, B. destruct A as [<- | [<- | [<- | [<- | []]]]], B as [<- | [<- | [<- | [<- | []]]]]; reflexivity. }
  specialize (H E 0%nat 1%nat ltac:(cbn; lia) ltac:(cbn; lia) ltac:(lia) ltac:(lia)). cbn in H. lra.
Qed.
Print Assumptions C76_bite_refuted.
Example C76_quality_example : forall fit, fits fit -> exists q, peak_fit fit ex_data 14 2 2 = inr q /\ q < 0.
Proof.
  intros fit F. exists (quality fit ex_data 14 2 2). split; [apply ex_good_quality; auto|].
  unfold quality. rewrite (ex_good_fit fit F), ex_bite_good.
  change (window ex_data 14 2) with [(-2, 12); (-1, 15); (0, 16); (1, 15); (2, 12)]. cbn [map fst snd]. unfold parabola.
  match goal with |- (deviation ?l / _ - 1) * _ < 0 => assert (Z0 : deviation l = 0) end.
  { apply deviation_flat; [discriminate|]. intros a b A B. cbn in A, B.
    destruct A as [<- | [<- | [<- | [<- | [<- | []]]]]], B as [<- | [<- | [<- | [<- | [<- | []]]]]]; ring. }
  rewrite Z0. unfold Rdiv. rewrite Rmult_0_l. pose proof (sqrt_lt_R0 2 ltac:(lra)). lra.
Qed.

(** The peaks found are the estimated ones in their order, except those left out; each is the top
    of the parabola fitted around the estimate, no further than the radius of the fit. *)
Theorem C76_found : forall fit cov data seed max peaks l,
  find_peak_errors fit cov false data seed max peaks = inr l ->
  within (map pk_in l) peaks /\ forall p, In p l -> exists d, (0 <= d)%Z /\ refined fit data d p.
Proof.
  intros fit cov data seed max peaks l H. destruct (peaks_found _ _ _ _ _ _ _ _ H) as [W A]. split; auto.
  intros p I. destruct (A p I) as (d & D & E). exists d. split; auto. apply (peak_of_some _ _ _ _ _ _ E).
Qed.
Print Assumptions C76_found.

(** A single estimate: the radius is the seed doubled while the fit is good, below the maximum
    and the number of data; the result is the top for this radius, unless that is astray. *)
Theorem C76_radius : forall fit cov data seed max peak,
  let m := Z.min (Z.of_nat (length data)) max in
  let good := fun d => exists q, peak_fit fit data peak d seed = inr q /\ q < 1 in
  (1 <= seed < m)%Z ->
  (exists d, radius good seed m d) /\
  (forall d d', radius good seed m d -> radius good seed m d' -> d = d') /\
  forall d, radius good seed m d -> forall l, find_peak_errors fit cov false data seed max [peak] = inr l ->
    (exists p, l = [p] /\ pk_in p = peak /\ refined fit data d p) \/ (l = [] /\ astray fit data d peak).
Proof.
  intros fit cov data seed max peak m good S1.
  assert (C : radius good seed m (chosen fit data peak seed m 0)) by (apply chosen_radius; [lra|auto]).
  split; [eauto|]. assert (U : forall d d', radius good seed m d -> radius good seed m d' -> d = d').
  { intros d d'. apply radius_unique. lia. }
  split; [exact U|]. intros d H l. rewrite one_peak. cbn zeta. fold m. rewrite (U _ d C H).
  destruct (peak_fit fit data peak d seed) as [e|q]; [discriminate|].
  destruct (peak_of fit cov data peak d) as [e|[p|]] eqn:E; [discriminate| |]; intros X; injection X as <-.
  - left. exists p. split; auto. apply (peak_of_some _ _ _ _ _ _ E).
  - right. split; auto. apply (peak_of_none _ _ _ _ _ E).
Qed.
Print Assumptions C76_radius.

Example C76_radius_example : forall fit cov, fits fit ->
  radius (fun d => exists q, peak_fit fit ex_data 14 d 2 = inr q /\ q < 1) 2 4 2 /\
  exists p, find_peak_errors fit cov false ex_data 2 4 [14%Z] = inr [p] /\ pk_in p = 14%Z /\ pk_x p = 14 /\ pk_y p = 16.
Proof.
  intros fit cov F. split.
  - pose proof (chosen_radius fit ex_data 14 2 4 0 ltac:(lra) ltac:(lia)) as C. rewrite ex_chosen in C by lra. exact C.
  - rewrite one_peak. cbn zeta. rewrite ex_m, ex_chosen, ex_good_quality by (auto; lra).
    unfold peak_of. rewrite points_window, (ex_good_fit fit F). destruct (Req_EM_T (-1) 0); [lra|].
    destruct (_ || _ || _)%bool eqn:O.
    + exfalso. rewrite orb3, !rltb_spec in O. cbn [length ex_data INR] in O.
      replace (- 0 / 2 / -1 + 14 - 14) with 0 in O by field. rewrite Rabs_R0 in O.
      replace (- 0 / 2 / -1 + 14) with 14 in O by field. lra.
    + eexists. split; [reflexivity|]. cbn [pk_in pk_x pk_y]. repeat split; field.
Qed.
Print Assumptions C76_radius_example.

(** The top of a parabola that opens downwards is its highest point, else its lowest. *)
Theorem C76_top : forall p, (snd p < 0 -> forall x, parabola p x <= top_y p) /\ (0 < snd p -> forall x, top_y p <= parabola p x).
Proof.
  intros [[p0 p1] p2]. cbn [snd]. split; intros N x.
  all: assert (E : parabola (p0, p1, p2) x - top_y (p0, p1, p2) = p2 * ((x + p1 / (2 * p2)) * (x + p1 / (2 * p2))))
    by (unfold top_y, top_x, parabola; field; lra).
  all: pose proof (Rle_0_sqr (x + p1 / (2 * p2))) as G; unfold Rsqr in G; nra.
Qed.
Print Assumptions C76_top.

(** A lowest point may be reported as a peak, where the data are not even flat. *)
Theorem C76_maximum_refuted : ~ (forall fit cov data seed max peaks l, fits fit ->
  find_peak_errors fit cov false data seed max peaks = inr l ->
  forall p, In p l -> exists d, refined fit data d p /\ snd (fit (window data (pk_in p) d)) < 0).
Proof.
  intros H.
  assert (E : exists p, find_peak_errors best unit_cov false ex_data 2 4 [4%Z] = inr [p] /\ pk_in p = 4%Z /\ pk_x p = 33 / 10 /\ pk_y p < -15).
  { rewrite one_peak. cbn zeta. rewrite ex_m, ex_chosen by lra.
    rewrite (proj1 (ex_bad_quality best best_fits)).
    unfold peak_of. rewrite points_window, (ex_bad_fit best best_fits). destruct (Req_EM_T (199 / 14) 0); [lra|].
    destruct (_ || _ || _)%bool eqn:O.
    + exfalso. rewrite orb3, !rltb_spec in O. cbn [length ex_data INR] in O.
      replace (- (199 / 10) / 2 / (199 / 14) + 4 - 4) with (- (7 / 10)) in O by field. rewrite Rabs_Ropp, Rabs_pos_eq in O by lra.
      replace (- (199 / 10) / 2 / (199 / 14) + 4) with (33 / 10) in O by field. lra.
    + eexists. split; [reflexivity|]. cbn [pk_in pk_x pk_y]. repeat split; lra. }
  destruct E as (p & E & I & X & Y).
  destruct (H best unit_cov ex_data 2%Z 4%Z [4%Z] [p] best_fits E p (or_introl eq_refl)) as (d & (N & _ & T & _) & L).
  rewrite I in *. pose proof (proj1 (C76_top (best (window ex_data 4 d))) L) as G. rewrite <- T in G.
  (* every datum is above -15, and so is the mean of the fitted values *)
  pose proof (best_normal (window ex_data 4 d)) as (B0 & _). unfold res in B0.
  assert (P : forall pts : list (R * R), (forall xy, In xy pts -> 0 <= snd xy) ->
     (forall x, parabola (best (window ex_data 4 d)) x <= pk_y p) ->
     total (fun xy => snd xy - parabola (best (window ex_data 4 d)) (fst xy)) pts = 0 -> pts = []).
  { intros pts A G' Z0. destruct pts as [|t r]; auto. exfalso.
    assert (Q : forall l, (forall xy, In xy l -> 0 <= snd xy) -> 0 <= total (fun xy => snd xy - parabola (best (window ex_data 4 d)) (fst xy)) l).
    { induction l as [|t' r' IH]; intros A'; cbn [total]; [lra|].
      pose proof (A' t' (or_introl eq_refl)). pose proof (G' (fst t')). assert (0 <= total (fun xy => snd xy - parabola (best (window ex_data 4 d)) (fst xy)) r') by (apply IH; intros; apply A'; right; auto). lra. }
    cbn [total] in Z0. pose proof (Q r (fun xy Ir => A xy (or_intror Ir))). pose proof (A t (or_introl eq_refl)). pose proof (G' (fst t)). lra. }
  assert (W0 : window ex_data 4 d = []).
  { apply P; auto. intros xy I'. apply window_in in I'. destruct I' as (i & Li & _ & ->). cbn [snd]. unfold datum.
    cbn [length ex_data] in Li. do 20 (destruct i as [|i]; [cbn; lra|]). lia. }
  rewrite W0 in L. cbn in L. unfold Rdiv in L. lra.
Qed.
Print Assumptions C76_maximum_refuted.

(** Data on a parabola near the estimate: if the top is not further away than the seed and in the
    data, it is found exactly. *)
Theorem C76_exact : forall fit cov data seed max peak par l, fits fit ->
  let m := Z.min (Z.of_nat (length data)) max in
  (1 <= seed < m)%Z -> (1 <= peak)%Z -> (peak + 2 <= Z.of_nat (length data))%Z -> snd par <> 0 ->
  (forall i, (i < length data)%nat -> (Z.abs (Z.of_nat i - peak) < m)%Z ->
     datum data i = parabola par (IZR (Z.of_nat i - peak))) ->
  Rabs (top_x par) <= IZR seed -> 0 <= IZR peak + top_x par <= INR (length data) ->
  find_peak_errors fit cov false data seed max [peak] = inr l ->
  exists p, l = [p] /\ pk_in p = peak /\ pk_x p = IZR peak + top_x par /\ pk_y p = top_y par.
Proof.
  intros fit cov data seed max peak par l F m S1 P1 P2 N D T B H.
  destruct (C76_radius fit cov data seed max peak S1) as ((d & Rd) & _ & A). fold m in Rd, A.
  assert (Ld : (seed <= d < m)%Z).
  { destruct Rd as (k & -> & L & _). split; auto. assert (1 <= 2 ^ Z.of_nat k)%Z by (apply (Z.pow_le_mono_r 2 0); lia). nia. }
  assert (E : fit (window data peak d) = par).
  { apply exact_fit; auto; try lia. intros i I J. apply D; auto. lia. }
  assert (Le : IZR seed <= IZR d) by (apply IZR_le; lia).
  destruct (A d Rd l H) as [(p & -> & I & (_ & X & Y & _)) | (-> & (_ & X))].
  - exists p. rewrite I, E in *. auto.
  - rewrite E in X. replace (IZR peak + top_x par - IZR peak) with (top_x par) in X by ring. exfalso. lra.
Qed.
Print Assumptions C76_exact.

Example C76_exact_example : forall i, (i < length ex_data)%nat -> (Z.abs (Z.of_nat i - 14) < 4)%Z ->
  datum ex_data i = parabola (16, 0, -1) (IZR (Z.of_nat i - 14)).
Proof.
  intros i I N. assert (K : In i [11; 12; 13; 14; 15; 16; 17]%nat) by (cbn; lia).
  cbn in K. repeat (destruct K as [<- | K]; [cbn; unfold parabola; lra|]). destruct K.
Qed.

(** The covariances reported are those of the parameters, propagated with the derivatives of the
    top with respect to them; they are symmetric and not negative if those are. *)
Theorem C76_errors : forall fit cov data seed max peaks l,
  find_peak_errors fit cov false data seed max peaks = inr l -> forall p, In p l -> exists d,
  refined fit data d p /\
  let pts := window data (pk_in p) d in
  (forall Dx Dy : nat -> R,
    (forall k, (k < 3)%nat -> partial top_x (fit pts) k (Dx k)) -> (forall k, (k < 3)%nat -> partial top_y (fit pts) k (Dy k)) ->
    symmetric3 (cov pts) ->
    pk_cov p = (form (cov pts) Dx Dx, form (cov pts) Dx Dy, form (cov pts) Dx Dy, form (cov pts) Dy Dy)) /\
  (symmetric3 (cov pts) -> nonnegative3 (cov pts) -> nonnegative2 (pk_cov p)).
Proof.
  intros fit cov data seed max peaks l H p I. destruct (peaks_found _ _ _ _ _ _ _ _ H) as [_ A].
  destruct (A p I) as (d & _ & E). exists d. split; [apply (peak_of_some _ _ _ _ _ _ E)|].
  set (pts := window data (pk_in p) d). cbn zeta.
  assert (G : forall Dx Dy : nat -> R,
    (forall k, (k < 3)%nat -> partial top_x (fit pts) k (Dx k)) -> (forall k, (k < 3)%nat -> partial top_y (fit pts) k (Dy k)) ->
    symmetric3 (cov pts) ->
    pk_cov p = (form (cov pts) Dx Dx, form (cov pts) Dx Dy, form (cov pts) Dx Dy, form (cov pts) Dy Dy)).
  { intros Dx Dy X Y S3. rewrite (errors _ _ _ _ _ _ E Dx Dy X Y). fold pts. unfold form.
    rewrite (S3 1%nat 0%nat), (S3 2%nat 0%nat), (S3 2%nat 1%nat). f_equal; try ring. f_equal; try ring. f_equal; ring. }
  split; [exact G|]. intros S3 N3. destruct (peak_of_cov _ _ _ _ _ _ E) as [N _]. fold pts in N.
  rewrite (G (fun k => nth k (dx (fit pts)) 0) (fun k => nth k (dy (fit pts)) 0)
    (fun k K => partial_x _ k N K) (fun k K => partial_y _ k N K) S3).
  set (a := fun k => nth k (dx (fit pts)) 0). set (b := fun k => nth k (dy (fit pts)) 0).
  intros u v. specialize (N3 (fun k => u * a k + v * b k)).
  assert (Q : form (cov pts) (fun k => u * a k + v * b k) (fun k => u * a k + v * b k)
    = form (cov pts) a a * u * u + form (cov pts) a b * u * v + form (cov pts) a b * v * u + form (cov pts) b b * v * v).
  { unfold form. rewrite (S3 1%nat 0%nat), (S3 2%nat 0%nat), (S3 2%nat 1%nat). ring. }
  lra.
Qed.
Print Assumptions C76_errors.

(** The derivatives exist. *)
Example C76_errors_example : exists Dx Dy, (forall k, (k < 3)%nat -> partial top_x (16, 0, -1) k (Dx k)) /\
  (forall k, (k < 3)%nat -> partial top_y (16, 0, -1) k (Dy k)) /\
  form (unit_cov []) Dx Dx = 1 / 4 /\ form (unit_cov []) Dy Dy = 1 /\ form (unit_cov []) Dx Dy = 0.
Proof.
  exists (fun k => nth k (dx (16, 0, -1)) 0), (fun k => nth k (dy (16, 0, -1)) 0).
  split; [intros k K; apply partial_x; auto; cbn; lra|]. split; [intros k K; apply partial_y; auto; cbn; lra|].
  unfold form, unit_cov. cbn. repeat split; field.
Qed.

(** find_peaks: the indices are those positions without their fractions. *)
Theorem C76_indices : forall fit cov data seed max peaks,
  (forall e, find_peaks fit cov false data seed max peaks = inl e <-> find_peak_errors fit cov false data seed max peaks = inl e) /\
  (forall l, find_peak_errors fit cov false data seed max peaks = inr l ->
    exists is, find_peaks fit cov false data seed max peaks = inr is /\
    Forall2 (fun i p => IZR i <= pk_x p < IZR i + 1) is l).
Proof.
  intros fit cov data seed max peaks. unfold find_peaks. split.
  - intros e. destruct (find_peak_errors _ _ _ _ _ _ _); split; intros H; congruence.
  - intros l H. rewrite H. eexists. split; [reflexivity|]. clear H. induction l as [|p r IH]; cbn [map]; constructor; auto.
    apply Rfloor_spec.
Qed.
Print Assumptions C76_indices.

(** If every single fit ends well, the estimates are treated independently of each other. *)
Theorem C76_separate : forall fit cov data seed max peaks ls,
  let m := Z.min (Z.of_nat (length data)) max in
  let good := fun p d => exists q, peak_fit fit data p d seed = inr q /\ q < 1 in
  (1 <= seed < m)%Z ->
  (forall p d, In p peaks -> radius (good p) seed m d -> good p d) ->
  Forall2 (fun p l => find_peak_errors fit cov false data seed max [p] = inr l) peaks ls ->
  find_peak_errors fit cov false data seed max peaks = inr (concat ls).
Proof.
  intros fit cov data seed max peaks ls m good S1 G F. unfold find_peak_errors.
  apply separate; auto; try lia; lra.
Qed.
Print Assumptions C76_separate.

(** In general they are not: the quality of the fit to one estimate is taken over to the next one,
    which is then fitted with half the seed.  Here two estimates are found on their own and fail
    together. *)
Theorem C76_separate_refuted : ~ (forall fit cov data seed max peaks ls, fits fit ->
  (1 <= seed < Z.min (Z.of_nat (length data)) max)%Z ->
  Forall2 (fun p l => find_peak_errors fit cov false data seed max [p] = inr l) peaks ls ->
  find_peak_errors fit cov false data seed max peaks = inr (concat ls)).
Proof.
  intros H.
  destruct (C76_radius_example best unit_cov best_fits) as (_ & p14 & E14 & _).
  assert (E4 : exists l, find_peak_errors best unit_cov false ex_data 2 4 [4%Z] = inr l).
  { rewrite one_peak. cbn zeta. rewrite ex_m, ex_chosen by lra. rewrite (proj1 (ex_bad_quality best best_fits)).
    unfold peak_of. rewrite points_window, (ex_bad_fit best best_fits). destruct (Req_EM_T (199 / 14) 0); [lra|].
    destruct (_ || _ || _)%bool; eauto. }
  destruct E4 as (l4 & E4).
  specialize (H best unit_cov ex_data 2%Z 4%Z [4%Z; 14%Z] [l4; [p14]] best_fits ltac:(cbn; lia)
    ltac:(constructor; [exact E4|constructor; [exact E14|constructor]])).
  unfold find_peak_errors in H. rewrite peaks_cons in H. cbn zeta in H. rewrite ex_m, ex_chosen in H by lra.
  destruct (ex_bad_quality best best_fits) as [E Q]. rewrite E in H.
  destruct (peak_of best unit_cov ex_data 4 2) as [e|o]; [discriminate|].
  rewrite peaks_cons in H. cbn zeta in H. rewrite ex_m, chosen_half in H by lra.
  assert (Z0 : peak_fit best ex_data 14 (2 / 2) 2 = inl FZeroDivision).
  { change (2 / 2)%Z with 1%Z. unfold peak_fit. change (points ex_data 14 1) with [(-1, 15); (0, 16); (1, 15)].
    rewrite sigma_deviation by discriminate. cbn [map snd]. change (py_slice [15; 16; 15] (1 - 2) (1 + 2)) with [15].
    rewrite sigma_deviation by discriminate.
    destruct (Req_EM_T (deviation [15]) 0) as [_|N]; auto. exfalso. apply N. apply deviation_flat; [discriminate|].
    intros a b [<- | []] [<- | []]; reflexivity. }
  rewrite Z0 in H. discriminate.
Qed.
Print Assumptions C76_separate_refuted.

(** In Python 3 the halved radius is not an integer, and no estimate is ever refined. *)
Theorem C76_python3_refuted : forall fit cov data seed max peaks,
  find_peak_errors fit cov true data seed max peaks = match peaks with [] => inr [] | _ => inl FType end.
Proof.
  intros fit cov data seed max [|p r]; [reflexivity|]. unfold find_peak_errors. cbn [peaks_loop].
  destruct (search_some fit data p seed (Z.min (Z.of_nat (length data)) max) 0) as (d & ->). reflexivity.
Qed.
Print Assumptions C76_python3_refuted.
