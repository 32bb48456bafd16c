(** C94: peaks with errors from a fit to the slopes. *)
From Coq Require Import Reals ZArith List Bool Lia Lra Psatz.
From Verif Require Import Num AlgoModel AlgoSpec RefineModel MomentSpec MomentProofs PeakProofs RefineProofs UphillModel UphillSpec UphillProofs.
Import ListNotations.
Open Scope R_scope.

Definition places (peaks : list nat) : list Z := map Z.of_nat peaks.

Lemma all_peaks_ok root_fit f data (delta : nat) (peaks : list nat) : fits root_fit -> ready f ->
  (forall p, In p peaks -> around data delta p <> []) ->
  find_peak_errors_derivative root_fit f data (places peaks) (Z.of_nat delta) =
  inr (map (fun p => let pts := around data delta p in let '(g, e) := root_fit (set_up (low pts) (high pts)) pts in
    (nth 0 (tf_par g) 0, e)) peaks).
Proof.
  intros F. unfold find_peak_errors_derivative. revert f. induction peaks as [|p r IH]; intros f Rf N; [reflexivity|].
  cbn [places map all_peaks]. rewrite one_peak_ok by exact Rf.
  assert (Np : around data delta p <> []) by (apply N; now left).
  pose proof (fits_ready root_fit (low (around data delta p)) (high (around data delta p)) _ F Np) as Rn.
  destruct (around data delta p) as [|q w] eqn:E; [easy|]. cbv zeta.
  destruct (root_fit (set_up (low (q :: w)) (high (q :: w))) (q :: w)) as [g e]. cbn [fst] in Rn.
  fold (places r). rewrite (IH g Rn) by (intros; apply N; now right). reflexivity.
Qed.

Lemma around_peak data delta p : In p (uphill_peaks data) -> (1 <= delta)%nat ->
  exists q q', In q (around data delta p) /\ In q' (around data delta p) /\ 0 < fst q /\ fst q' < 0.
Proof.
  intros I D. apply uphill_in in I. destruct I as (P & Q & U & V).
  assert (J : forall i, (p - 1 <= i <= p)%nat -> In (AlgoSpec.val data (S i) - AlgoSpec.val data i, INR i) (around data delta p)).
  { intros i Hi. unfold around, slopes. apply (in_map (fun i => (AlgoSpec.val data (S i) - AlgoSpec.val data i, INR i))). apply in_seq. lia. }
  eexists; eexists. split; [apply (J (p - 1)%nat); lia|]. split; [apply (J p); lia|]. cbn [fst].
  replace (S (p - 1)) with p by lia. lra.
Qed.

Lemma not_nil {A} (l : list A) x : In x l -> l <> [].
Proof. destruct l; [contradiction|discriminate]. Qed.

(** For the peaks that find_peaks returns the call succeeds; each comes with where the one best line through the slopes
    in its window has slope zero, whatever was fitted before. *)
Theorem C94_peaks root_fit f data delta : fits root_fit -> ready f -> (1 <= delta)%nat ->
  exists out, find_peak_errors_derivative root_fit f data (places (uphill_peaks data)) (Z.of_nat delta) = inr out /\
    length out = length (uphill_peaks data) /\
    forall k, (k < length out)%nat -> let pts := around data delta (nth k (uphill_peaks data) 0%nat) in
      exists m, best_line pts (fst (nth k out (0, 0))) m /\
        forall c' m', best_line pts c' m' -> c' = fst (nth k out (0, 0)) /\ m' = m.
Proof.
  intros F Rf D.
  assert (N : forall p, In p (uphill_peaks data) -> around data delta p <> []).
  { intros p I. destruct (around_peak data delta p I D) as (q & _ & J & _). apply (not_nil _ _ J). }
  rewrite (all_peaks_ok root_fit f data delta _ F Rf N). eexists. split; [reflexivity|]. split; [apply map_length|].
  rewrite map_length. intros k Hk pts.
  set (p := nth k (uphill_peaks data) 0%nat) in *. assert (I : In p (uphill_peaks data)) by (apply nth_In; exact Hk).
  match goal with |- context [nth k (map ?g _) _] => set (G := g) end.
  rewrite (nth_indep _ (0, 0) (G 0%nat)) by (now rewrite map_length). rewrite (map_nth G). fold p. unfold G. cbv zeta. fold pts.
  destruct (F (set_up (low pts) (high pts)) pts eq_refl eq_refl (N p I)) as (c & m & E & _ & B).
  destruct (root_fit _ pts) as [g e]. cbn [fst] in E |- *. rewrite E. cbn [nth]. exists m. split; [exact B|].
  intros c' m' B'. destruct (around_peak data delta p I D) as (q & q' & J & J' & S1 & S2).
  apply (best_unique pts); [|exact B'|exact B]. exists q, q'. split; [exact J|]. split; [exact J'|]. lra.
Qed.

(** On a parabola every peak is placed half a place before the vertex. *)
Theorem C94_parabola root_fit f data delta peaks a v k : fits root_fit -> ready f -> a <> 0 ->
  (forall i, (i < length data)%nat -> nth i data 0 = a * (INR i - v) ^ 2 + k) ->
  (forall p, In p peaks -> (2 <= length (around data delta p))%nat) ->
  exists out, find_peak_errors_derivative root_fit f data (places peaks) (Z.of_nat delta) = inr out /\
    map fst out = map (fun _ => v - / 2) peaks.
Proof.
  intros F Rf A P L.
  assert (N : forall p, In p peaks -> around data delta p <> []).
  { intros p I E. specialize (L p I). rewrite E in L. cbn in L. lia. }
  rewrite (all_peaks_ok root_fit f data delta _ F Rf N). eexists. split; [reflexivity|].
  rewrite map_map. apply map_ext_in. intros p I. cbv zeta. set (pts := around data delta p).
  destruct (F (set_up (low pts) (high pts)) pts eq_refl eq_refl (N p I)) as (c & m & E & _ & B).
  destruct (root_fit _ pts) as [g e]. cbn [fst] in E |- *. rewrite E. cbn [nth].
  assert (S : forall q, In q pts -> fst q = 2 * a * (snd q - v + / 2)).
  { intros q J. unfold pts, around, slopes in J. apply in_map_iff in J. destruct J as (i & <- & J). apply in_seq in J. cbn [fst snd].
    unfold AlgoSpec.val. rewrite !P by lia. rewrite S_INR. field. }
  assert (B' : best_line pts (v - / 2) (/ (2 * a))).
  { intros c' m'. apply Rle_trans with 0.
    - apply Req_le. unfold misfit. rewrite (rsum_ext _ (fun _ => 0)); [apply rsum_zero|]. intros q J. rewrite (S q J). field. exact A.
    - apply rsum_nonneg. intros. apply pow2_ge_0. }
  apply (best_unique pts c m (v - / 2) (/ (2 * a))); [|exact B|exact B'].
  specialize (L p I). unfold around, slopes in L. rewrite map_length, seq_length in L.
  set (lo := (p - delta)%nat) in *. set (hi := Nat.min (p + delta + 1) (length data - 1)) in *.
  assert (In1 : forall i, (lo <= i < hi)%nat -> In (AlgoSpec.val data (Datatypes.S i) - AlgoSpec.val data i, INR i) pts).
  { intros i Hi. unfold pts, around, slopes. apply (in_map (fun i => (AlgoSpec.val data (Datatypes.S i) - AlgoSpec.val data i, INR i))). apply in_seq. lia. }
  eexists; eexists. split; [apply (In1 lo); lia|]. split; [apply (In1 (Datatypes.S lo)); lia|].
  pose proof (S _ (In1 lo ltac:(lia))) as S1. pose proof (S _ (In1 (Datatypes.S lo) ltac:(lia))) as S2. cbn [fst snd] in *. rewrite S1, S2.
  rewrite S_INR. intros K. apply A. lra.
Qed.

(** So the estimate is not the place of the peak: the parabola with its top at 3. *)
Definition hill : list R := [-9; -4; -1; 0; -1; -4; -9].
Theorem C94_vertex_refuted root_fit f : fits root_fit -> ready f ->
  In 3%nat (uphill_peaks hill) /\
  exists e, find_peak_errors_derivative root_fit f hill [3%Z] 2 = inr [(5 / 2, e)].
Proof.
  intros F Rf. split.
  - apply uphill_in. unfold local_max, AlgoSpec.val, hill. cbn. split; [lia|]. split; [lia|]. lra.
  - destruct (C94_parabola root_fit f hill 2 [3%nat] (-1) 3 0 F Rf) as (out & E & O); [lra| | |].
    + intros i Hi. do 7 (destruct i as [|i]; [cbn; ring|]). cbn in Hi. lia.
    + intros p [<-|[]]. cbn. lia.
    + cbn [places map Z.of_nat Pos.of_succ_nat Pos.succ] in E. change (Z.pos (Pos.succ (Pos.succ 1))) with 3%Z in E. change (Z.pos (Pos.succ 1)) with 2%Z in E.
      destruct out as [|[c e] [|? ?]]; cbn in O; try discriminate O. injection O as O. exists e. rewrite E. do 3 f_equal. lra.
Qed.

(** Scaling and lifting the data does not move the estimates. *)
Theorem C94_scale root_fit root_fit' f f' data delta s k : fits root_fit -> fits root_fit' -> ready f -> ready f' -> (1 <= delta)%nat -> s <> 0 ->
  exists out out',
    find_peak_errors_derivative root_fit f data (places (uphill_peaks data)) (Z.of_nat delta) = inr out /\
    find_peak_errors_derivative root_fit' f' (map (fun x => s * x + k) data) (places (uphill_peaks data)) (Z.of_nat delta) = inr out' /\
    map fst out = map fst out'.
Proof.
  intros F F' Rf Rf' D Ns.
  assert (N : forall p, In p (uphill_peaks data) -> around data delta p <> []).
  { intros p I. destruct (around_peak data delta p I D) as (q & _ & J & _). apply (not_nil _ _ J). }
  assert (EA : forall p, around (map (fun x => s * x + k) data) delta p = map (fun q => (s * fst q, snd q)) (around data delta p)).
  { intros p. unfold around, slopes. rewrite map_length, map_map. apply map_ext_in. intros i J. apply in_seq in J. cbn [fst snd].
    unfold AlgoSpec.val. f_equal. rewrite !(nth_indep (map _ _) 0 ((fun x => s * x + k) 0)) by (rewrite map_length; lia).
    rewrite !(map_nth (fun x => s * x + k)). ring. }
  rewrite (all_peaks_ok root_fit f data delta _ F Rf N). rewrite (all_peaks_ok root_fit' f').
  - eexists; eexists. split; [reflexivity|]. split; [reflexivity|]. rewrite !map_map. apply map_ext_in. intros p I. cbv zeta. rewrite EA.
    set (pts := around data delta p). set (pts' := map (fun q => (s * fst q, snd q)) pts).
    assert (Np' : pts' <> []) by (unfold pts'; pose proof (N p I); fold pts in H; destruct pts; [easy|discriminate]).
    destruct (F (set_up (low pts) (high pts)) pts eq_refl eq_refl (N p I)) as (c & m & E & _ & B).
    destruct (F' (set_up (low pts') (high pts')) pts' eq_refl eq_refl Np') as (c' & m' & E' & _ & B').
    destruct (root_fit _ pts) as [g e]. destruct (root_fit' _ pts') as [g' e']. cbn [fst] in E, E' |- *. rewrite E, E'. cbn [nth].
    assert (M : forall a b, misfit pts' a b = misfit pts a (b * s)).
    { intros a b. unfold misfit, pts'. rewrite rsum_map. apply rsum_ext. intros q _. cbn [fst snd]. ring. }
    destruct (around_peak data delta p I D) as (q & q' & J & J' & S1 & S2).
    apply (best_unique pts c m c' (m' * s)); [|exact B|].
    + exists q, q'. split; [exact J|]. split; [exact J'|]. lra.
    + intros a b. rewrite <- M. replace (misfit pts a b) with (misfit pts' a (b / s)); [apply B'|]. rewrite M. f_equal. field. exact Ns.
  - exact F'.
  - exact Rf'.
  - intros p I. rewrite EA. specialize (N p I). destruct (around data delta p); [easy|discriminate].
Qed.

(** Only the data from delta before to delta + 1 after a peak matter. *)
Theorem C94_local root_fit f data data' delta p : ready f -> length data = length data' ->
  (forall i, (p - delta <= i <= p + delta + 1)%nat -> nth i data 0 = nth i data' 0) ->
  find_peak_errors_derivative root_fit f data [Z.of_nat p] (Z.of_nat delta) =
  find_peak_errors_derivative root_fit f data' [Z.of_nat p] (Z.of_nat delta).
Proof.
  intros Rf L H. unfold find_peak_errors_derivative. cbn [all_peaks]. rewrite !one_peak_ok by exact Rf.
  replace (around data' delta p) with (around data delta p); [reflexivity|].
  unfold around, slopes. rewrite L. apply map_ext_in. intros i J. apply in_seq in J. unfold AlgoSpec.val. rewrite !H by lia. reflexivity.
Qed.

(** One peak after the other: nothing carries over from the fits before. *)
Theorem C94_one_by_one root_fit f f' data delta peaks peaks' out out' : fits root_fit -> ready f -> ready f' ->
  (forall p, In p (peaks ++ peaks') -> (p - delta + 1 < length data)%nat) ->
  find_peak_errors_derivative root_fit f data (places peaks) (Z.of_nat delta) = inr out ->
  find_peak_errors_derivative root_fit f' data (places peaks') (Z.of_nat delta) = inr out' ->
  find_peak_errors_derivative root_fit f data (places (peaks ++ peaks')) (Z.of_nat delta) = inr (out ++ out').
Proof.
  intros F Rf Rf' I.
  assert (N : forall p, In p (peaks ++ peaks') -> around data delta p <> []).
  { intros p J. specialize (I p J). unfold around, slopes. intros E. apply map_eq_nil in E.
    apply (f_equal (@length nat)) in E. rewrite seq_length in E. cbn in E. lia. }
  rewrite (all_peaks_ok root_fit f data delta peaks F Rf) by (intros; apply N, in_or_app; now left).
  rewrite (all_peaks_ok root_fit f' data delta peaks' F Rf') by (intros; apply N, in_or_app; now right).
  rewrite (all_peaks_ok root_fit f data delta (peaks ++ peaks') F Rf N). intros E E'. injection E as <-. injection E' as <-.
  rewrite map_app. reflexivity.
Qed.

(** A peak beyond the data raises ValueError. *)
Theorem C94_outside root_fit f data delta p r : ready f -> (length data <= p - delta + 1)%nat ->
  find_peak_errors_derivative root_fit f data (Z.of_nat p :: r) (Z.of_nat delta) = inl UValueError.
Proof.
  intros Rf H. unfold find_peak_errors_derivative. cbn [all_peaks]. rewrite one_peak_ok by exact Rf.
  replace (around data delta p) with (@nil (R * R)); [reflexivity|].
  unfold around, slopes. replace (Nat.min (p + delta + 1) (length data - 1) - (p - delta))%nat with 0%nat by lia. reflexivity.
Qed.

(** With a window of one place the answer is up to the fit: two that find best lines disagree. *)
Theorem C94_narrow_refuted : exists fit fit', fits fit /\ fits fit' /\
  find_peak_errors_derivative fit tf1_new hill [3%Z] 0 <> find_peak_errors_derivative fit' tf1_new hill [3%Z] 0.
Proof.
  exists (plain_fit 0), (plain_fit 1). split; [apply plain_fits|]. split; [apply plain_fits|].
  assert (Rf : ready tf1_new) by (split; [reflexivity|now exists false, false, false]).
  unfold find_peak_errors_derivative. cbn [all_peaks].
  pose proof (one_peak_ok (plain_fit 0) tf1_new hill 0 3 Rf) as H0. pose proof (one_peak_ok (plain_fit 1) tf1_new hill 0 3 Rf) as H1.
  change (Z.of_nat 0) with 0%Z in H0, H1. change (Z.of_nat 3) with 3%Z in H0, H1. rewrite H0, H1. clear H0 H1.
  assert (E : around hill 0 3 = [(-1, 3)]) by (unfold around, slopes, AlgoSpec.val, hill; cbn; repeat f_equal; ring).
  rewrite E. cbn [plain_fit fst snd tf_par nth low high map fold_left].
  intros K. injection K as K. unfold cut_of, slope_of in K.
  assert (Y : ybar [(-1, 3)] = -1) by (unfold ybar, Sy, nn; cbn; field).
  assert (V : Vy [(-1, 3)] = 0) by (unfold Vy; rewrite Y; cbn; ring).
  rewrite Y in K. destruct (Req_EM_T (Vy [(-1, 3)]) 0) as [_|NV]; [lra|now apply NV].
Qed.

(** The fit of the constructor is ready, and a fit that finds best lines exists. *)
Example C94_ex : ready tf1_new /\ fits (plain_fit 0) /\ uphill_peaks hill <> [].
Proof.
  split; [split; [reflexivity|now exists false, false, false]|]. split; [apply plain_fits|].
  apply (not_nil _ 3%nat). apply uphill_in. unfold local_max, AlgoSpec.val, hill. cbn. split; [lia|]. split; [lia|]. lra.
Qed.

Print Assumptions C94_peaks.
Print Assumptions C94_parabola.
Print Assumptions C94_vertex_refuted.
Print Assumptions C94_scale.
Print Assumptions C94_local.
Print Assumptions C94_one_by_one.
Print Assumptions C94_outside.
Print Assumptions C94_narrow_refuted.
