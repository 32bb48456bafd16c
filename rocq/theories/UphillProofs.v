From Coq Require Import Reals ZArith List Bool Lia Lra Psatz.
From Verif Require Import Num AlgoModel AlgoSpec RefineModel MomentSpec MomentProofs PeakProofs RefineProofs UphillModel UphillSpec.
Import ListNotations.
Open Scope R_scope.
Notation rsum := MomentSpec.rsum.
Notation val := AlgoSpec.val.

(** ---- least squares ------------------------------------------------------------- *)
Lemma misfit_split pts c m c' m' :
  misfit pts c' m' = misfit pts c m
    + 2 * (c - c') * rsum (fun q => snd q - (c + m * fst q)) pts
    + 2 * (m - m') * rsum (fun q => (snd q - (c + m * fst q)) * fst q) pts
    + rsum (fun q => ((c - c') + (m - m') * fst q) ^ 2) pts.
Proof. unfold misfit. induction pts as [|[y x] r IH]; cbn [MomentSpec.rsum fst snd]; [ring|]. rewrite IH. ring. Qed.

Definition normal (pts : list (R * R)) (c m : R) : Prop :=
  rsum (fun q => snd q - (c + m * fst q)) pts = 0 /\ rsum (fun q => (snd q - (c + m * fst q)) * fst q) pts = 0.

Lemma normal_best pts c m : normal pts c m -> best_line pts c m.
Proof.
  intros [N1 N2] c' m'. rewrite (misfit_split pts c m c' m'), N1, N2.
  assert (0 <= rsum (fun q => ((c - c') + (m - m') * fst q) ^ 2) pts) by (apply rsum_nonneg; intros; apply pow2_ge_0). lra.
Qed.

Lemma rsum_null {A} (f : A -> R) l : (forall x, In x l -> 0 <= f x) -> rsum f l <= 0 -> forall x, In x l -> f x = 0.
Proof.
  induction l as [|a r IH]; cbn [MomentSpec.rsum In]; [contradiction|]. intros P H x J.
  assert (0 <= rsum f r) by (apply rsum_nonneg; intros; apply P; now right). assert (0 <= f a) by (apply P; now left).
  destruct J as [-> |J]; [lra|]. apply IH; [intros; apply P; now right|lra|exact J].
Qed.

Definition Sy (pts : list (R * R)) := rsum fst pts.
Definition Sx (pts : list (R * R)) := rsum snd pts.
Definition nn (pts : list (R * R)) := INR (length pts).
Definition ybar pts := Sy pts / nn pts.
Definition xbar pts := Sx pts / nn pts.
Definition Vy pts := rsum (fun q => (fst q - ybar pts) ^ 2) pts.
Definition Cxy pts := rsum (fun q => (snd q - xbar pts) * (fst q - ybar pts)) pts.
(** The best line; its slope is t if all y are the same. *)
Definition slope_of (t : R) pts := if Req_EM_T (Vy pts) 0 then t else Cxy pts / Vy pts.
Definition cut_of (t : R) pts := xbar pts - slope_of t pts * ybar pts.

Lemma center_y pts : pts <> [] -> rsum (fun q => fst q - ybar pts) pts = 0.
Proof.
  intros N. assert (E : forall b l, rsum (fun q : R * R => fst q - b) l = rsum fst l - INR (length l) * b).
  { intros b l. induction l as [|q r IH]; [cbn; ring|]. cbn [MomentSpec.rsum]. rewrite IH. change (length (q :: r)) with (S (length r)). rewrite S_INR. ring. }
  rewrite E. unfold ybar, Sy, nn. field. apply not_0_INR. destruct pts; [easy|cbn; lia].
Qed.
Lemma center_x pts : pts <> [] -> rsum (fun q => snd q - xbar pts) pts = 0.
Proof.
  intros N. assert (E : forall b l, rsum (fun q : R * R => snd q - b) l = rsum snd l - INR (length l) * b).
  { intros b l. induction l as [|q r IH]; [cbn; ring|]. cbn [MomentSpec.rsum]. rewrite IH. change (length (q :: r)) with (S (length r)). rewrite S_INR. ring. }
  rewrite E. unfold xbar, Sx, nn. field. apply not_0_INR. destruct pts; [easy|cbn; lia].
Qed.

Lemma lsq_normal t pts : pts <> [] -> normal pts (cut_of t pts) (slope_of t pts).
Proof.
  intros N. pose proof (center_y pts N) as Y. pose proof (center_x pts N) as X. set (m := slope_of t pts).
  assert (E1 : forall l, rsum (fun q => snd q - (cut_of t pts + m * fst q)) l
    = rsum (fun q => snd q - xbar pts) l - m * rsum (fun q => fst q - ybar pts) l).
  { intros l. induction l as [|q r IH]; cbn [MomentSpec.rsum]; [ring|]. rewrite IH. unfold cut_of. fold m. ring. }
  assert (E2 : forall l, rsum (fun q => (snd q - (cut_of t pts + m * fst q)) * fst q) l
    = rsum (fun q => (snd q - xbar pts) * (fst q - ybar pts)) l - m * rsum (fun q => (fst q - ybar pts) ^ 2) l
      + ybar pts * (rsum (fun q => snd q - xbar pts) l - m * rsum (fun q => fst q - ybar pts) l)).
  { intros l. induction l as [|q r IH]; cbn [MomentSpec.rsum]; [ring|]. rewrite IH. unfold cut_of. fold m. ring. }
  split; [rewrite E1, X, Y; ring|]. rewrite E2, X, Y.
  change (rsum (fun q => (snd q - xbar pts) * (fst q - ybar pts)) pts) with (Cxy pts).
  change (rsum (fun q => (fst q - ybar pts) ^ 2) pts) with (Vy pts). unfold m, slope_of.
  destruct (Req_EM_T (Vy pts) 0) as [Z|NZ]; [|field; exact NZ].
  assert (C : Cxy pts = 0).
  { assert (A : forall q, In q pts -> (fst q - ybar pts) ^ 2 = 0).
    { apply rsum_null; [intros; apply pow2_ge_0|]. change (Vy pts <= 0). lra. }
    unfold Cxy. rewrite (rsum_ext _ (fun _ => 0)); [apply rsum_zero|]. intros q J. specialize (A q J). cbn beta in A. assert (A' : fst q - ybar pts = 0) by (destruct (Req_dec (fst q - ybar pts) 0) as [K|K]; [exact K|exfalso; apply (pow_nonzero _ 2 K A)]). rewrite A'. ring. }
  rewrite Z, C. ring.
Qed.

Lemma best_unique pts c m c' m' : (exists q q', In q pts /\ In q' pts /\ fst q <> fst q') ->
  best_line pts c m -> best_line pts c' m' -> c = c' /\ m = m'.
Proof.
  intros (q & q' & J & J' & D) B B'.
  assert (N : pts <> []) by (destruct pts; [contradiction|discriminate]).
  pose proof (lsq_normal 0 pts N) as [N1 N2]. set (c0 := cut_of 0 pts) in *. set (m0 := slope_of 0 pts) in *.
  assert (U : forall a b, best_line pts a b -> a = c0 /\ b = m0).
  { intros a b K. specialize (K c0 m0). rewrite (misfit_split pts c0 m0 a b), N1, N2 in K.
    assert (Z : forall z, In z pts -> ((c0 - a) + (m0 - b) * fst z) ^ 2 = 0).
    { apply rsum_null; [intros; apply pow2_ge_0|]. lra. }
    pose proof (Z q J) as Z1. pose proof (Z q' J') as Z2.
    assert (Sq : forall w, w ^ 2 = 0 -> w = 0) by (intros w G; destruct (Req_dec w 0) as [G'|G']; [exact G'|exfalso; apply (pow_nonzero _ 2 G' G)]).
    pose proof (Sq _ Z1) as Z3. pose proof (Sq _ Z2) as Z4.
    assert (Z5 : (m0 - b) * (fst q - fst q') = 0) by lra. apply Rmult_integral in Z5. destruct Z5 as [Z5|Z5]; [|exfalso; lra].
    rewrite Z5 in Z3. lra. }
  destruct (U c m B), (U c' m' B'). split; congruence.
Qed.

(** ---- the window ---------------------------------------------------------------- *)
Lemma derivative_map data : derivative data = map (fun i => val data (S i) - val data i) (seq 0 (length data - 1)).
Proof. unfold derivative, AlgoSpec.val. replace (length (tl data)) with (length data - 1)%nat by (destruct data; cbn; lia). reflexivity. Qed.

Definition set_up (lo hi : R) : TF1 := mkTF1 [0; 0; 0; 0; 0] [false; false; true; true; true] (lo, hi).

Lemma set_up_ok f lo hi : ready f ->
  set_range lo hi (fold_left (fun g i => fix_parameter i 0 g) (seq 2 3) (fold_left (fun g i => set_parameter i 0 g) (seq 0 5) f)) = set_up lo hi.
Proof.
  intros [L (a & b & c & F)]. destruct f as [p x r]. cbn [tf_par tf_fixed] in *. subst x.
  do 5 (destruct p as [|? p]; [discriminate L|]). destruct p; [|discriminate L]. reflexivity.
Qed.

Definition low (pts : list (R * R)) : R := match pts with [] => 0 | q :: r => fold_left Rmin (map fst r) (fst q) end.
Definition high (pts : list (R * R)) : R := match pts with [] => 0 | q :: r => fold_left Rmax (map fst r) (fst q) end.

Lemma one_peak_ok root_fit f data (delta peak : nat) : ready f ->
  one_peak root_fit f (derivative data) (Z.of_nat delta) (Z.of_nat peak) =
  match around data delta peak with
  | [] => inl UValueError
  | pts => let '(f', e) := root_fit (set_up (low pts) (high pts)) pts in inr (f', (nth 0 (tf_par f') 0, e))
  end.
Proof.
  intros Rf. unfold one_peak. rewrite derivative_map. rewrite map_length, seq_length.
  rewrite slice_seq by lia. cbn [Nat.add].
  set (D := fun i => val data (S i) - val data i).
  set (lo := (peak - delta)%nat). set (hi := Nat.min (peak + delta + 1) (length data - 1)).
  assert (Elo : Z.max (Z.of_nat peak - Z.of_nat delta) 0 = Z.of_nat lo) by lia.
  assert (Ehi : Z.min (Z.of_nat peak + Z.of_nat delta + 1) (Z.of_nat (length data - 1)) = Z.of_nat hi) by lia.
  rewrite Elo, Ehi. rewrite !Nat2Z.id.
  replace (Z.to_nat (Z.of_nat hi - Z.of_nat lo)) with (hi - lo)%nat by lia.
  replace (Nat.min (length data - 1) hi - Nat.min (length data - 1) lo)%nat with (hi - lo)%nat by lia.
  assert (EA : around data delta peak = map (fun i => (D i, INR i)) (seq lo (hi - lo))) by reflexivity.
  rewrite EA.
  destruct (Nat.eq_dec (hi - lo) 0) as [Z0|Z0]; [rewrite Z0; reflexivity|].
  replace (Nat.min (length data - 1) lo) with lo by lia.
  assert (P : map (fun i => (nth i (map D (seq lo (hi - lo))) 0,
      IZR (nth i (map (fun k => (Z.of_nat lo + Z.of_nat k)%Z) (seq 0 (hi - lo))) 0%Z)))
      (seq 0 (length (map (fun k => (Z.of_nat lo + Z.of_nat k)%Z) (seq 0 (hi - lo))))) = map (fun i => (D i, INR i)) (seq lo (hi - lo))).
  { rewrite map_length, seq_length. clear. set (k := (hi - lo)%nat).
    apply nth_ext with (d := (0, 0)) (d' := (0, 0)); rewrite !map_length, !seq_length; [reflexivity|]. intros i Hi.
    rewrite (nth_indep _ (0,0) (nth 0%nat (map D (seq lo k)) 0, IZR (nth 0%nat (map (fun j => (Z.of_nat lo + Z.of_nat j)%Z) (seq 0 k)) 0%Z)))
      by (now rewrite map_length, seq_length).
    rewrite (map_nth (fun i => (nth i (map D (seq lo k)) 0, IZR (nth i (map (fun j => (Z.of_nat lo + Z.of_nat j)%Z) (seq 0 k)) 0%Z)))).
    rewrite (nth_indep _ (0,0) (D 0%nat, INR 0)) by (now rewrite map_length, seq_length).
    rewrite (map_nth (fun i => (D i, INR i))). rewrite !seq_nth by lia. rewrite !Nat.add_0_l.
    rewrite (nth_indep _ 0 (D 0%nat)) by (now rewrite map_length, seq_length). rewrite (map_nth D), seq_nth by lia.
    rewrite (nth_indep _ 0%Z (Z.of_nat lo + Z.of_nat 0)%Z) by (now rewrite map_length, seq_length).
    rewrite (map_nth (fun j => (Z.of_nat lo + Z.of_nat j)%Z)), seq_nth by lia. rewrite INR_IZR_INZ. do 2 f_equal. lia. }
  rewrite P. clear P. destruct (seq lo (hi - lo)) as [|i r] eqn:Es; [apply (f_equal (@length nat)) in Es; rewrite seq_length in Es; cbn in Es; lia|].
  cbn [map min_of max_of]. rewrite set_up_ok by exact Rf. cbn [low high fst].
  replace (map fst (map (fun i => (D i, INR i)) r)) with (map D r) by (rewrite map_map; reflexivity). reflexivity.
Qed.

Lemma fits_ready root_fit lo hi pts : fits root_fit -> pts <> [] -> ready (fst (root_fit (set_up lo hi) pts)).
Proof.
  intros F N. destruct (F (set_up lo hi) pts eq_refl eq_refl N) as (c & m & E & X & _). split; [now rewrite E|].
  rewrite X. now exists true, true, true.
Qed.

(** A fit that satisfies the demands: parameter t for the slope of an undetermined line. *)
Definition plain_fit (t : R) (f : TF1) (pts : list (R * R)) : TF1 * R :=
  (mkTF1 [cut_of t pts; slope_of t pts; 0; 0; 0] (tf_fixed f) (tf_range f), 0).
Lemma plain_fits t : fits (plain_fit t).
Proof. intros f pts _ _ N. exists (cut_of t pts), (slope_of t pts). split; [reflexivity|]. split; [reflexivity|]. apply normal_best, lsq_normal, N. Qed.
