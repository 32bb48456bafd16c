(** Proofs for refined peaks. *)
From Coq Require Import Reals ZArith Lia Lra Psatz List Bool.
From Verif Require Import HitPyModel HitPySpec CommonModel AlgoModel RefineModel RefineSpec.
Import ListNotations.
Open Scope R_scope.

(** ---- sums ---- *)
Lemma total_ext f g pts : (forall p, In p pts -> f p = g p) -> total f pts = total g pts.
Proof.
  induction pts as [|p r IH]; intros E; cbn; auto. rewrite IH, E by (intros; first [apply E|idtac]; simpl; auto). reflexivity.
Qed.
Lemma total_plus f g pts : total (fun p => f p + g p) pts = total f pts + total g pts.
Proof. induction pts as [|p r IH]; cbn; [ring|]. rewrite IH. ring. Qed.
Lemma total_scale c f pts : total (fun p => c * f p) pts = c * total f pts.
Proof. induction pts as [|p r IH]; cbn; [ring|]. rewrite IH. ring. Qed.
Lemma total_nonneg f pts : (forall p, 0 <= f p) -> 0 <= total f pts.
Proof. intros N. induction pts as [|p r IH]; cbn; [lra|]. specialize (N p). lra. Qed.
Lemma total_zero f pts : (forall p, 0 <= f p) -> total f pts = 0 -> forall p, In p pts -> f p = 0.
Proof.
  intros N. induction pts as [|q r IH]; cbn; [tauto|]. intros E p [<-|I].
  - pose proof (N q). pose proof (total_nonneg f r N). lra.
  - apply IH; auto. pose proof (N q). pose proof (total_nonneg f r N). lra.
Qed.
Lemma total_const0 pts f : (forall p, In p pts -> f p = 0) -> total f pts = 0.
Proof. induction pts as [|p r IH]; cbn; auto. intros E. rewrite E, IH by auto. ring. Qed.

(** ---- the normal equations ---- *)
Definition res (p : R * R * R) (xy : R * R) : R := snd xy - parabola p (fst xy).
Definition normal (pts : list (R * R)) (p : R * R * R) : Prop :=
  total (res p) pts = 0 /\ total (fun xy => res p xy * fst xy) pts = 0 /\
  total (fun xy => res p xy * (fst xy * fst xy)) pts = 0.

Lemma normal_split pts p q : normal pts p ->
  residuals q pts = residuals p pts + total (fun xy => (parabola p (fst xy) - parabola q (fst xy)) ^ 2) pts.
Proof.
  intros (A & B & C). unfold residuals. destruct p as [[p0 p1] p2], q as [[q0 q1] q2].
  transitivity (total (fun xy => (snd xy - parabola (p0, p1, p2) (fst xy)) ^ 2
     + ((parabola (p0, p1, p2) (fst xy) - parabola (q0, q1, q2) (fst xy)) ^ 2
     + (2 * (p0 - q0) * res (p0, p1, p2) xy + (2 * (p1 - q1) * (res (p0, p1, p2) xy * fst xy)
        + 2 * (p2 - q2) * (res (p0, p1, p2) xy * (fst xy * fst xy)))))) pts).
  - apply total_ext. intros [x y] _. unfold res, parabola. cbn [fst snd]. ring.
  - rewrite !total_plus, !total_scale, A, B, C. ring.
Qed.
Lemma normal_least pts p : normal pts p -> least_squares pts p.
Proof.
  intros N q. rewrite (normal_split pts p q N).
  assert (0 <= total (fun xy => (parabola p (fst xy) - parabola q (fst xy)) ^ 2) pts)
    by (apply total_nonneg; intros; apply pow2_ge_0). lra.
Qed.
(** Three abscissas determine a parabola. *)
Lemma parabola_three p q x y z : x <> y -> y <> z -> x <> z ->
  parabola p x = parabola q x -> parabola p y = parabola q y -> parabola p z = parabola q z -> p = q.
Proof.
  destruct p as [[p0 p1] p2], q as [[q0 q1] q2]. unfold parabola. intros N1 N2 N3 A B C.
  set (a := p0 - q0). set (b := p1 - q1). set (c := p2 - q2).
  assert (A' : a + b * x + c * x * x = 0) by (unfold a, b, c; lra).
  assert (B' : a + b * y + c * y * y = 0) by (unfold a, b, c; lra).
  assert (C' : a + b * z + c * z * z = 0) by (unfold a, b, c; lra).
  assert (D1 : (x - y) * (b + c * (x + y)) = 0) by lra.
  assert (D2 : (y - z) * (b + c * (y + z)) = 0) by lra.
  apply Rmult_integral in D1. apply Rmult_integral in D2.
  destruct D1 as [D1|D1]; [lra|]. destruct D2 as [D2|D2]; [lra|].
  assert (D3 : (x - z) * c = 0) by lra. apply Rmult_integral in D3. destruct D3 as [D3|D3]; [lra|].
  rewrite D3 in D1, A'. assert (B0 : b = 0) by lra. rewrite B0 in A'. assert (A0 : a = 0) by lra.
  unfold a, b, c in *. f_equal; [f_equal|]; lra.
Qed.
Lemma least_unique pts p q x y z : normal pts p -> least_squares pts q ->
  x <> y -> y <> z -> x <> z -> In x (map fst pts) -> In y (map fst pts) -> In z (map fst pts) -> q = p.
Proof.
  intros N L N1 N2 N3 Ix Iy Iz. specialize (L p). rewrite (normal_split pts p q N) in L.
  assert (G : forall t, 0 <= (fun xy : R * R => (parabola p (fst xy) - parabola q (fst xy)) ^ 2) t) by (intros; apply pow2_ge_0).
  assert (Z0 : total (fun xy => (parabola p (fst xy) - parabola q (fst xy)) ^ 2) pts = 0).
  { pose proof (total_nonneg _ pts G). lra. }
  assert (E : forall t, In t (map fst pts) -> parabola q t = parabola p t).
  { intros t I. apply in_map_iff in I. destruct I as (xy & <- & I). pose proof (total_zero _ pts G Z0 xy I) as H. cbn beta in H.
    assert (parabola p (fst xy) - parabola q (fst xy) = 0) by nra. lra. }
  apply (parabola_three q p x y z); auto.
Qed.
Lemma exact_normal pts p : (forall xy, In xy pts -> snd xy = parabola p (fst xy)) -> normal pts p.
Proof.
  intros E. repeat split; apply total_const0; intros xy I; unfold res; rewrite (E xy I); ring.
Qed.

(** There is always a best parabola: orthogonal polynomials. *)
Definition best (pts : list (R * R)) : R * R * R :=
  let n := total (fun _ => 1) pts in
  let m := total fst pts / n in
  let u := fun x => x - m in
  let U := total (fun xy => u (fst xy) * u (fst xy)) pts in
  let b := total (fun xy => fst xy * fst xy) pts / n in
  let a := total (fun xy => fst xy * fst xy * u (fst xy)) pts / U in
  let v := fun x => x * x - a * u x - b in
  let V := total (fun xy => v (fst xy) * v (fst xy)) pts in
  let c0 := total snd pts / n in
  let c1 := total (fun xy => snd xy * u (fst xy)) pts / U in
  let c2 := total (fun xy => snd xy * v (fst xy)) pts / V in
  (c0 - c1 * m + c2 * (a * m - b), c1 - c2 * a, c2).

Lemma div_cancel a b : (b = 0 -> a = 0) -> a / b * b = a.
Proof.
  intros H. destruct (Req_dec b 0) as [E|E]; [rewrite (H E), E; ring|field; auto].
Qed.
Lemma total_squares_zero (f g : R * R -> R) pts : total (fun xy => f xy * f xy) pts = 0 ->
  total (fun xy => g xy * f xy) pts = 0.
Proof.
  intros Z0. apply total_const0. intros p I.
  assert (f p * f p = 0) by (apply (total_zero (fun xy => f xy * f xy) pts); auto; intros q; nra).
  assert (f p = 0) by nra. rewrite H0. ring.
Qed.

Lemma best_normal pts : normal pts (best pts).
Proof.
  destruct pts as [|p0 r]; [repeat split; reflexivity|]. set (pts := p0 :: r).
  assert (n0 : 0 < total (fun _ => 1) pts).
  { unfold pts. cbn. assert (0 <= total (fun _ => 1) r) by (apply total_nonneg; intros; lra). lra. }
  set (n := total (fun _ : R * R => 1) pts) in *.
  set (m := total fst pts / n).
  set (u := fun x => x - m).
  set (U := total (fun xy => u (fst xy) * u (fst xy)) pts).
  set (b := total (fun xy => fst xy * fst xy) pts / n).
  set (a := total (fun xy => fst xy * fst xy * u (fst xy)) pts / U).
  set (v := fun x => x * x - a * u x - b).
  set (V := total (fun xy => v (fst xy) * v (fst xy)) pts).
  set (c0 := total snd pts / n).
  set (c1 := total (fun xy => snd xy * u (fst xy)) pts / U).
  set (c2 := total (fun xy => snd xy * v (fst xy)) pts / V).
  assert (EB : best pts = (c0 - c1 * m + c2 * (a * m - b), c1 - c2 * a, c2)) by reflexivity.
  assert (T1 : forall c, total (fun _ => c) pts = c * n).
  { intros c. unfold n. rewrite <- total_scale. apply total_ext. intros; ring. }
  assert (Em : m * n = total fst pts) by (unfold m; field; lra).
  assert (Eb : b * n = total (fun xy => fst xy * fst xy) pts) by (unfold b; field; lra).
  assert (E0 : c0 * n = total snd pts) by (unfold c0; field; lra).
  assert (Ea : a * U = total (fun xy => fst xy * fst xy * u (fst xy)) pts).
  { unfold a. apply div_cancel. intros Z0. apply (total_squares_zero (fun xy => u (fst xy)) (fun xy => fst xy * fst xy)). exact Z0. }
  assert (E1 : c1 * U = total (fun xy => snd xy * u (fst xy)) pts).
  { unfold c1. apply div_cancel. intros Z0. apply (total_squares_zero (fun xy => u (fst xy)) snd). exact Z0. }
  assert (E2 : c2 * V = total (fun xy => snd xy * v (fst xy)) pts).
  { unfold c2. apply div_cancel. intros Z0. apply (total_squares_zero (fun xy => v (fst xy)) snd). exact Z0. }
  assert (Su : total (fun xy => u (fst xy)) pts = 0).
  { transitivity (total (fun xy => fst xy + - m) pts).
    - apply total_ext. intros; unfold u; ring.
    - rewrite total_plus, T1, <- Em. ring. }
  assert (Sv : total (fun xy => v (fst xy)) pts = 0).
  { transitivity (total (fun xy => fst xy * fst xy + (- a * u (fst xy) + - b)) pts).
    - apply total_ext. intros; unfold v; ring.
    - rewrite !total_plus, total_scale, Su, T1, <- Eb. ring. }
  assert (Suv : total (fun xy => u (fst xy) * v (fst xy)) pts = 0).
  { transitivity (total (fun xy => fst xy * fst xy * u (fst xy) + (- a * (u (fst xy) * u (fst xy)) + - b * u (fst xy))) pts).
    - apply total_ext. intros; unfold v; ring.
    - rewrite !total_plus, !total_scale, Su, <- Ea. fold U. ring. }
  (* residual in terms of u and v *)
  assert (P : forall xy, res (best pts) xy = snd xy + (- c0 + (- c1 * u (fst xy) + - c2 * v (fst xy)))).
  { intros xy. rewrite EB. unfold res, parabola, u, v, u. ring. }
  assert (R0 : total (res (best pts)) pts = 0).
  { rewrite (total_ext _ _ pts (fun xy _ => P xy)). rewrite !total_plus, !total_scale, T1, Su, Sv, <- E0. ring. }
  assert (R1 : total (fun xy => res (best pts) xy * u (fst xy)) pts = 0).
  { transitivity (total (fun xy => snd xy * u (fst xy) + (- c0 * u (fst xy) + (- c1 * (u (fst xy) * u (fst xy)) + - c2 * (u (fst xy) * v (fst xy))))) pts).
    - apply total_ext. intros xy _. rewrite P. ring.
    - rewrite !total_plus, !total_scale, Su, Suv, <- E1. fold U. ring. }
  assert (R2 : total (fun xy => res (best pts) xy * v (fst xy)) pts = 0).
  { transitivity (total (fun xy => snd xy * v (fst xy) + (- c0 * v (fst xy) + (- c1 * (u (fst xy) * v (fst xy)) + - c2 * (v (fst xy) * v (fst xy))))) pts).
    - apply total_ext. intros xy _. rewrite P. ring.
    - rewrite !total_plus, !total_scale, Sv, Suv, <- E2. fold V. ring. }
  assert (R1' : total (fun xy => res (best pts) xy * fst xy) pts = 0).
  { transitivity (total (fun xy => res (best pts) xy * u (fst xy) + m * res (best pts) xy) pts).
    - apply total_ext. intros xy _. unfold u. ring.
    - rewrite total_plus, total_scale, R1. change (fun p => res (best pts) p) with (res (best pts)). rewrite R0. ring. }
  split; [exact R0|]. split; [exact R1'|].
  transitivity (total (fun xy => res (best pts) xy * v (fst xy) + (a * (res (best pts) xy * u (fst xy)) + b * res (best pts) xy)) pts).
  - apply total_ext. intros xy _. unfold v. ring.
  - rewrite !total_plus, !total_scale, R1, R2. change (fun p => res (best pts) p) with (res (best pts)). rewrite R0. ring.
Qed.
Lemma best_fits : fits best.
Proof. intros pts. apply normal_least, best_normal. Qed.

(** ---- standard deviations ---- *)
Lemma rsum_acc l : forall a, fold_left Rplus l a = a + sum_of l.
Proof. induction l as [|x l IH]; intros a; cbn; [ring|]. rewrite IH. fold (sum_of l). ring. Qed.
Lemma rsum_sum l : rsum l = sum_of l.
Proof. unfold rsum. rewrite rsum_acc. ring. Qed.
Lemma sum_squares c l : sum_of (map (fun y => (y - c) ^ 2) l)
  = sum_of (map (fun y => y ^ 2) l) - 2 * c * sum_of l + INR (length l) * c ^ 2.
Proof.
  induction l as [|x l IH]; [cbn; ring|].
  change (length (x :: l)) with (S (length l)). rewrite S_INR. cbn [map sum_of fold_right] in *. fold (sum_of (map (fun y => (y - c) ^ 2) l)).
  fold (sum_of (map (fun y => y ^ 2) l)). fold (sum_of l). rewrite IH. ring.
Qed.
Lemma sigma_deviation l : l <> [] -> sigma l = Some (deviation l).
Proof.
  intros N. unfold sigma, deviation. destruct l as [|x l']; [congruence|]. set (l := x :: l') in *.
  rewrite !rsum_sum, sum_squares.
  assert (0 < INR (length l)) by (apply lt_0_INR; cbn; lia). do 2 f_equal. unfold mean. field. lra.
Qed.
Lemma sum_of_nonneg l : (forall x, In x l -> 0 <= x) -> 0 <= sum_of l.
Proof.
  induction l as [|x l IH]; intros N; cbn; [lra|]. fold (sum_of l).
  pose proof (N x (or_introl eq_refl)). assert (0 <= sum_of l) by (apply IH; intros; apply N; right; auto). lra.
Qed.
Lemma sum_of_zero l : (forall x, In x l -> 0 <= x) -> sum_of l = 0 -> forall x, In x l -> x = 0.
Proof.
  induction l as [|x l IH]; intros N Z0 y I; [destruct I|]. cbn in Z0. fold (sum_of l) in Z0.
  pose proof (N x (or_introl eq_refl)). assert (N' : forall z, In z l -> 0 <= z) by (intros; apply N; right; auto).
  pose proof (sum_of_nonneg l N'). destruct I as [<- | I]; [lra|]. apply IH; auto. lra.
Qed.
Lemma deviation_nonneg l : 0 <= deviation l.
Proof. apply sqrt_pos. Qed.
Lemma squares_nonneg c l : forall x, In x (map (fun y => (y - c) ^ 2) l) -> 0 <= x.
Proof. intros x I. apply in_map_iff in I. destruct I as (y & <- & _). apply pow2_ge_0. Qed.
Lemma flat_mean l x : flat l -> In x l -> mean l = x.
Proof.
  intros F I. assert (E : sum_of l = INR (length l) * x).
  { assert (A : forall y, In y l -> y = x) by (intros; apply F; auto). clear F I.
    induction l as [|y l IH]; [cbn; ring|]. change (length (y :: l)) with (S (length l)). rewrite S_INR. cbn [sum_of fold_right]. fold (sum_of l).
    rewrite IH by (intros; apply A; right; auto). rewrite (A y (or_introl eq_refl)). ring. }
  unfold mean. rewrite E. field. apply not_0_INR. destruct l; [destruct I|discriminate].
Qed.
Lemma deviation_flat l : l <> [] -> (deviation l = 0 <-> flat l).
Proof.
  intros N. unfold deviation. assert (P : 0 < INR (length l)) by (apply lt_0_INR; destruct l; [congruence|cbn; lia]).
  pose proof (sum_of_nonneg _ (squares_nonneg (mean l) l)) as G. set (s := sum_of _) in *.
  assert (G' : 0 <= s / INR (length l)) by (apply Rmult_le_pos; [auto|left; apply Rinv_0_lt_compat; auto]).
  split.
  - intros E. apply sqrt_eq_0 in E; auto. assert (S0 : s = 0).
    { apply (Rmult_eq_reg_r (/ INR (length l))); [unfold Rdiv in E; lra|]. apply Rgt_not_eq, Rinv_0_lt_compat; auto. }
    assert (A : forall a, In a l -> a = mean l).
    { intros a I. assert ((a - mean l) ^ 2 = 0).
      { apply (sum_of_zero (map (fun y => (y - mean l) ^ 2) l)); auto; [apply squares_nonneg|].
        apply in_map_iff. exists a. auto. }
      nra. }
    intros a b Ia Ib. rewrite (A a), (A b); auto.
  - intros F. assert (S0 : s = 0).
    { unfold s. clear - F. assert (A : forall a, In a l -> a = mean l) by (intros; symmetry; apply flat_mean; auto).
      generalize dependent (mean l). clear F. induction l as [|x l IH]; intros m A; [reflexivity|].
      cbn [map sum_of fold_right]. fold (sum_of (map (fun y => (y - m) ^ 2) l)). rewrite IH by (intros; apply A; right; auto).
      rewrite (A x (or_introl eq_refl)). ring. }
    rewrite S0. unfold Rdiv. rewrite Rmult_0_l. apply sqrt_0.
Qed.

(** ---- windows ---- *)
Lemma filter_seq a b n : filter (fun i => (a <=? i) && (i <? b))%nat (seq 0 n) = seq a (Nat.min b n - a).
Proof.
  induction n as [|n IH]; [rewrite Nat.min_0_r; reflexivity|].
  rewrite seq_S, filter_app, IH. cbn [filter Nat.add].
  destruct (Nat.leb_spec a n), (Nat.ltb_spec n b); cbn [andb]; rewrite ?app_nil_r.
  - replace (Nat.min b (S n) - a)%nat with (S (n - a)) by lia. rewrite seq_S.
    replace (Nat.min b n - a)%nat with (n - a)%nat by lia. replace (a + (n - a))%nat with n by lia. reflexivity.
  - f_equal. lia.
  - f_equal. lia.
  - f_equal. lia.
Qed.
Lemma seq_map_add a k : seq a k = map (fun i => (a + i)%nat) (seq 0 k).
Proof.
  revert a. induction k as [|k IH]; intros a; [reflexivity|]. rewrite !seq_S, map_app, IH. cbn. reflexivity.
Qed.
Lemma points_window data peak d : points data peak d = window data peak d.
Proof.
  unfold points, window.
  assert (E : filter (near peak d) (seq 0 (length data))
    = seq (Z.to_nat (Z.max (peak - d) 0)) (Z.to_nat (Z.min (peak + d + 1) (Z.of_nat (length data)) - Z.max (peak - d) 0))).
  { rewrite (filter_ext _ (fun i => (Z.to_nat (Z.max (peak - d) 0) <=? i) && (i <? Z.to_nat (peak + d + 1)))%nat).
    - rewrite filter_seq. f_equal. lia.
    - intros i. unfold near. destruct (Z.leb_spec (Z.abs (Z.of_nat i - peak)) d),
        (Nat.leb_spec (Z.to_nat (Z.max (peak - d) 0)) i), (Nat.ltb_spec i (Z.to_nat (peak + d + 1))); cbn; auto; lia. }
  rewrite E, (seq_map_add (Z.to_nat _)), map_map. apply map_ext. intros i. unfold datum. f_equal. f_equal. lia.
Qed.
Lemma skipn_seq s : forall a k, skipn s (seq a k) = seq (a + s) (k - s).
Proof.
  induction s as [|s IH]; intros a k; cbn [skipn]; [f_equal; lia|]. destruct k as [|k]; [reflexivity|]. cbn [seq].
  rewrite IH. f_equal. lia.
Qed.
Lemma firstn_seq m : forall a k, firstn m (seq a k) = seq a (Nat.min m k).
Proof. induction m as [|m IH]; intros a k; [reflexivity|]. destruct k as [|k]; [reflexivity|]. cbn. rewrite IH. reflexivity. Qed.
Lemma window_ys data peak d : map snd (window data peak d) =
  map (datum data) (seq (Z.to_nat (Z.max (peak - d) 0)) (Z.to_nat (Z.min (peak + d + 1) (Z.of_nat (length data)) - Z.max (peak - d) 0))).
Proof.
  rewrite <- points_window. unfold points. rewrite map_map. cbn [snd]. rewrite (seq_map_add (Z.to_nat (Z.max (peak - d) 0))), map_map. reflexivity.
Qed.
Lemma bite_seq data peak d b : (0 <= peak < Z.of_nat (length data))%Z -> (0 <= b <= d)%Z ->
  bite data peak d b = map (datum data) (seq (Z.to_nat (Z.max peak d - b))
    (Nat.min (Z.to_nat (Z.min (peak + d + 1) (Z.max peak d + b))) (length data) - Z.to_nat (Z.max peak d - b))).
Proof.
  intros P Q. unfold bite. rewrite <- filter_seq. apply (f_equal (map (datum data))). apply filter_ext. intros i.
  apply eq_true_iff_eq. unfold near. rewrite !andb_true_iff, !Z.leb_le, Z.ltb_lt, Nat.leb_le, Nat.ltb_lt. lia.
Qed.
Lemma slice_seq (f : nat -> R) a k s e : (0 <= s)%Z -> (0 <= e)%Z ->
  py_slice (map f (seq a k)) s e = map f (seq (a + Nat.min k (Z.to_nat s)) (Nat.min k (Z.to_nat e) - Nat.min k (Z.to_nat s))).
Proof.
  intros A B. unfold py_slice. rewrite map_length, seq_length.
  rewrite (proj2 (Z.ltb_ge s 0) A), (proj2 (Z.ltb_ge e 0) B).
  rewrite skipn_map, firstn_map, skipn_seq, firstn_seq. apply (f_equal (map f)). apply f_equal2; lia.
Qed.
Lemma bite_slice data peak d b : (0 <= peak < Z.of_nat (length data))%Z -> (0 <= b <= d)%Z ->
  py_slice (map snd (window data peak d)) (d - b) (d + b) = bite data peak d b.
Proof.
  intros P Q. rewrite window_ys, slice_seq, bite_seq by lia. set (n := length data) in *.
  destruct (Z.le_gt_cases (Z.of_nat n) (Z.max peak d - b)) as [G|G].
  - match goal with |- map _ (seq _ ?k) = map _ (seq _ ?k') => assert (k = 0%nat) as -> by lia; assert (k' = 0%nat) as -> by lia end. reflexivity.
  - apply (f_equal (map (datum data))). apply f_equal2; lia.
Qed.
Lemma window_peak data peak d : (0 <= peak < Z.of_nat (length data))%Z -> (0 <= d)%Z -> window data peak d <> [].
Proof.
  intros P Q E. assert (I : In (IZR (Z.of_nat (Z.to_nat peak) - peak), datum data (Z.to_nat peak)) (window data peak d)).
  { apply in_map_iff. exists (Z.to_nat peak). split; auto. apply filter_In. split; [apply in_seq; lia|].
    unfold near. apply Z.leb_le. lia. }
  rewrite E in I. destruct I.
Qed.
Lemma deviation_nil : deviation [] = 0.
Proof. unfold deviation. cbn. unfold Rdiv. rewrite Rmult_0_l. apply sqrt_0. Qed.

(** ---- a fit ---- *)
Section Fit.
Variable fit : list (R * R) -> R * R * R.
Variable cov : list (R * R) -> nat -> nat -> R.

Lemma peak_fit_quality data peak d b : (0 <= peak < Z.of_nat (length data))%Z -> (0 <= b <= d)%Z ->
  peak_fit fit data peak d b =
    (if Req_EM_T (deviation (bite data peak d b)) 0 then inl FZeroDivision else inr (quality fit data peak d b)).
Proof.
  intros P B. pose proof (window_peak data peak d P ltac:(lia)) as W. unfold peak_fit. rewrite points_window.
  rewrite bite_slice by (auto; lia). unfold quality. destruct (window data peak d) as [|w ws] eqn:E; [congruence|].
  rewrite sigma_deviation by discriminate.
  destruct (bite data peak d b) as [|x l] eqn:EB.
  - cbn [sigma]. rewrite deviation_nil. destruct (Req_EM_T 0 0); [reflexivity|contradiction].
  - rewrite sigma_deviation by discriminate.
    destruct (Req_EM_T _ 0); auto. rewrite (proj2 (Z.ltb_ge b 0)) by lia. reflexivity.
Qed.
Lemma peak_fit_empty data peak d b : points data peak d = [] -> peak_fit fit data peak d b = inl FIndex.
Proof. intros E. unfold peak_fit. rewrite E. reflexivity. Qed.
Lemma peak_fit_points data peak d b q : peak_fit fit data peak d b = inr q -> points data peak d <> [].
Proof. intros H E. rewrite peak_fit_empty in H by auto. discriminate. Qed.
Lemma peak_fit_radius data peak d b q : peak_fit fit data peak d b = inr q -> (0 <= d)%Z.
Proof.
  intros H. destruct (Z.lt_ge_cases d 0); [|lia]. exfalso. apply (peak_fit_points _ _ _ _ _ H). unfold points.
  replace (Z.to_nat (_ - Z.max _ _)) with 0%nat by lia. reflexivity.
Qed.

(** ---- the search for a radius ---- *)
Definition passes data peak seed d : Prop := exists q, peak_fit fit data peak d seed = inr q /\ q < 1.

Lemma rltb_spec a b : rltb a b = true <-> a < b.
Proof. unfold rltb. destruct (Rlt_dec a b); split; intros; auto; discriminate. Qed.

Lemma search_stop k data peak seed m q d : ~ (q < 1 /\ (d < m)%Z) -> search fit k data peak seed m q d = Some d.
Proof.
  intros N. assert (E : (rltb q 1 && Z.ltb d m)%bool = false).
  { destruct (rltb q 1) eqn:A; auto. destruct (Z.ltb d m) eqn:B; auto. exfalso. apply N.
    split; [apply rltb_spec; auto|apply Z.ltb_lt; auto]. }
  destruct k; cbn [search]; rewrite E; reflexivity.
Qed.
Lemma search_step k data peak seed m q d : q < 1 -> (d < m)%Z -> search fit (S k) data peak seed m q d =
  match peak_fit fit data peak (d * 2) seed with
  | inl _ => Some (d * 2)%Z | inr q' => search fit k data peak seed m q' (d * 2) end.
Proof.
  intros A B. cbn [search]. rewrite (proj2 (rltb_spec q 1) A), (proj2 (Z.ltb_lt d m) B). reflexivity.
Qed.

Lemma search_start data peak seed m : forall k q d, q < 1 -> (1 <= d < m)%Z -> (m - d <= Z.of_nat k)%Z ->
  exists j : nat, search fit k data peak seed m q d = Some (d * 2 ^ Z.of_nat j * 2)%Z /\
    (d * 2 ^ Z.of_nat j < m)%Z /\
    (forall i : nat, (1 <= i <= j)%nat -> passes data peak seed (d * 2 ^ Z.of_nat i)) /\
    ((m <= d * 2 ^ Z.of_nat j * 2)%Z \/ ~ passes data peak seed (d * 2 ^ Z.of_nat j * 2)).
Proof.
  induction k as [|k IH]; intros q d Q D K; [lia|].
  rewrite search_step by (auto; lia).
  destruct (peak_fit fit data peak (d * 2) seed) as [e|q'] eqn:E.
  - exists 0%nat. rewrite Z.pow_0_r, Z.mul_1_r. repeat split; try lia. right. intros (q' & H & _). congruence.
  - destruct (Rlt_dec q' 1) as [L|L].
    + destruct (Z.lt_ge_cases (d * 2) m) as [M|M].
      * destruct (IH q' (d * 2)%Z L ltac:(lia) ltac:(lia)) as (j & S1 & S2 & S3 & S4).
        assert (P2 : (d * 2 * 2 ^ Z.of_nat j = d * 2 ^ Z.of_nat (S j))%Z).
        { rewrite Nat2Z.inj_succ, Z.pow_succ_r by lia. ring. }
        exists (S j). rewrite <- P2. repeat split; auto. intros i I. destruct i as [|i]; [lia|].
        destruct i as [|i].
        -- exists q'. split; auto.
        -- specialize (S3 (S i) ltac:(lia)). rewrite (Nat2Z.inj_succ (S i)), Z.pow_succ_r, Z.mul_assoc by lia. exact S3.
      * exists 0%nat. rewrite Z.pow_0_r, Z.mul_1_r. rewrite search_stop by lia. repeat split; try lia.
    + exists 0%nat. rewrite Z.pow_0_r, Z.mul_1_r. rewrite search_stop by tauto. repeat split; try lia.
      right. intros (q'' & H & L'). rewrite E in H. injection H as <-. contradiction.
Qed.
(** A seed that is not positive never fits. *)
Lemma slice_empty l a : py_slice l a a = [].
Proof. unfold py_slice. rewrite Z.sub_diag. reflexivity. Qed.
Lemma no_fit data peak seed d : (seed <= 0)%Z -> (d <= 0)%Z -> (d = 0 -> seed = 0)%Z -> exists e, peak_fit fit data peak d seed = inl e.
Proof.
  intros A B C. destruct (Z.eq_dec d 0) as [-> | N].
  - rewrite (C eq_refl). unfold peak_fit. destruct (points data peak 0) as [|w ws]; [eauto|].
    change (0 - 0)%Z with 0%Z. change (0 + 0)%Z with 0%Z. rewrite slice_empty. cbn [sigma].
    destruct (sigma _); eauto.
  - exists FIndex. apply peak_fit_empty. unfold points. replace (Z.to_nat (_ - Z.max _ _)) with 0%nat by lia. reflexivity.
Qed.

(** The radius the loop ends with, halved. *)
Definition chosen data peak seed m q : Z :=
  match search fit (S (Z.to_nat m)) data peak seed m q seed with Some d => (d / 2)%Z | None => 0%Z end.
Lemma search_some data peak seed m q : exists d, search fit (S (Z.to_nat m)) data peak seed m q seed = Some d.
Proof.
  destruct (Rlt_dec q 1) as [Q|Q]; [|exists seed; apply search_stop; tauto].
  destruct (Z.lt_ge_cases seed m) as [M|M]; [|exists seed; apply search_stop; lia].
  destruct (Z.le_gt_cases 1 seed) as [S1|S1].
  - destruct (search_start data peak seed m (S (Z.to_nat m)) q seed Q ltac:(lia) ltac:(lia)) as (j & E & _). eauto.
  - rewrite search_step by auto. destruct (no_fit data peak seed (seed * 2) ltac:(lia) ltac:(lia) ltac:(lia)) as (e & ->). eauto.
Qed.
Lemma chosen_radius data peak seed m q : q < 1 -> (1 <= seed < m)%Z ->
  radius (passes data peak seed) seed m (chosen data peak seed m q).
Proof.
  intros Q M. destruct (search_start data peak seed m (S (Z.to_nat m)) q seed Q ltac:(lia) ltac:(lia)) as (j & E & A & B & C).
  unfold chosen. rewrite E, Z.div_mul by lia. exists j. auto.
Qed.
Lemma chosen_half data peak seed m q : ~ (q < 1 /\ (seed < m)%Z) -> chosen data peak seed m q = (seed / 2)%Z.
Proof. intros N. unfold chosen. rewrite search_stop by auto. reflexivity. Qed.
Lemma radius_unique ok seed m d d' : (1 <= seed)%Z -> radius ok seed m d -> radius ok seed m d' -> d = d'.
Proof.
  assert (H : forall k k' : nat, (1 <= seed)%Z -> (seed * 2 ^ Z.of_nat k' < m)%Z ->
     (forall i : nat, (1 <= i <= k')%nat -> ok (seed * 2 ^ Z.of_nat i)%Z) ->
     ((m <= seed * 2 ^ Z.of_nat k * 2)%Z \/ ~ ok (seed * 2 ^ Z.of_nat k * 2)%Z) -> (k' <= k)%nat).
  { intros k k' S1 L O X. destruct (Nat.le_gt_cases k' k) as [|G]; auto. exfalso.
    assert (E : (seed * 2 ^ Z.of_nat k * 2 = seed * 2 ^ Z.of_nat (S k))%Z).
    { rewrite Nat2Z.inj_succ, Z.pow_succ_r by lia. ring. }
    rewrite E in X. destruct X as [X|X].
    - assert ((2 ^ Z.of_nat (S k) <= 2 ^ Z.of_nat k')%Z) by (apply Z.pow_le_mono_r; lia). nia.
    - apply X, O. lia. }
  intros S1 (k & -> & A & B & C) (k' & -> & A' & B' & C'). f_equal. f_equal. f_equal.
  apply Nat.le_antisymm; eapply H; eauto.
Qed.

(** One peak. *)
Lemma top_y_form p0 p1 p2 : p2 <> 0 -> top_y (p0, p1, p2) = - p1 * p1 / 4 / p2 + p0.
Proof. intros N. unfold top_y, top_x, parabola. field. auto. Qed.
Lemma top_x_form p0 p1 p2 : p2 <> 0 -> top_x (p0, p1, p2) = - p1 / 2 / p2.
Proof. intros N. unfold top_x. field. auto. Qed.
Lemma orb3 a b c : (a || b || c)%bool = true <-> a = true \/ b = true \/ c = true.
Proof. destruct a, b, c; cbn; intuition discriminate. Qed.
Lemma peak_of_some data peak d p : peak_of fit cov data peak d = inr (Some p) -> pk_in p = peak /\ refined fit data d p.
Proof.
  unfold peak_of, refined. rewrite points_window. destruct (fit (window data peak d)) as [[p0 p1] p2] eqn:E.
  destruct (Req_EM_T p2 0) as [|N]; [discriminate|].
  destruct (_ || _ || _)%bool eqn:O; [discriminate|]. intros H. injection H as <-. cbn [pk_in pk_x pk_y]. split; auto.
  rewrite E. rewrite top_y_form, top_x_form by auto. cbn [snd].
  assert (X : ~ (IZR d < Rabs (- p1 / 2 / p2 + IZR peak - IZR peak) \/ - p1 / 2 / p2 + IZR peak < 0 \/ INR (length data) < - p1 / 2 / p2 + IZR peak)).
  { rewrite <- !rltb_spec, <- orb3, O. discriminate. }
  repeat split; auto; try lra.
Qed.
Lemma peak_of_none data peak d : peak_of fit cov data peak d = inr None -> astray fit data d peak.
Proof.
  unfold peak_of, astray. rewrite points_window. destruct (fit (window data peak d)) as [[p0 p1] p2] eqn:E.
  destruct (Req_EM_T p2 0) as [|N]; [discriminate|].
  destruct (_ || _ || _)%bool eqn:O; [|discriminate]. intros _. cbn [snd]. rewrite top_x_form by auto. split; auto.
  rewrite orb3, !rltb_spec in O. rewrite (Rplus_comm (IZR peak)). exact O.
Qed.
Lemma peaks_cons data seed max q peak r :
  let m := Z.min (Z.of_nat (length data)) max in
  let d := chosen data peak seed m q in
  peaks_loop fit cov false data seed max q (peak :: r) =
    match peak_fit fit data peak d seed with
    | inl e => inl e
    | inr q' => match peak_of fit cov data peak d with
                | inl e => inl e
                | inr o => match peaks_loop fit cov false data seed max q' r with
                           | inl e => inl e
                           | inr l => inr (match o with Some p => p :: l | None => l end)
                           end
                end
    end.
Proof.
  cbn zeta. cbn [peaks_loop]. unfold chosen.
  destruct (search_some data peak seed (Z.min (Z.of_nat (length data)) max) q) as (d & ->). reflexivity.
Qed.
Lemma within_nil {A} (l : list A) : within [] l. Proof. constructor. Qed.
Lemma peaks_found data seed max : forall peaks q l, peaks_loop fit cov false data seed max q peaks = inr l ->
  within (map pk_in l) peaks /\ forall p, In p l -> exists d, (0 <= d)%Z /\ peak_of fit cov data (pk_in p) d = inr (Some p).
Proof.
  induction peaks as [|peak r IH]; intros q l H.
  - cbn in H. injection H as <-. split; [constructor|intros p []].
  - rewrite peaks_cons in H. cbn zeta in H. set (d := chosen _ _ _ _ _) in H.
    destruct (peak_fit fit data peak d seed) as [e|q'] eqn:F; [discriminate|].
    destruct (peak_of fit cov data peak d) as [e|o] eqn:O; [discriminate|].
    destruct (peaks_loop fit cov false data seed max q' r) as [e|l'] eqn:L; [discriminate|].
    destruct (IH q' l' L) as [W A]. apply peak_fit_radius in F. destruct o as [p|].
    + injection H as <-. destruct (peak_of_some _ _ _ _ O) as [I Rf]. cbn [map]. rewrite I. split; [apply w_keep; auto|].
      intros p' [<- | I']; [rewrite I; eauto|eauto].
    + injection H as <-. split; [apply w_skip; auto|auto].
Qed.
Lemma one_peak data seed max peak :
  let m := Z.min (Z.of_nat (length data)) max in
  find_peak_errors fit cov false data seed max [peak] =
    match peak_fit fit data peak (chosen data peak seed m 0) seed with
    | inl e => inl e
    | inr q' => match peak_of fit cov data peak (chosen data peak seed m 0) with
                | inl e => inl e
                | inr o => inr (match o with Some p => [p] | None => [] end)
                end
    end.
Proof.
  cbn zeta. unfold find_peak_errors. rewrite peaks_cons. cbn zeta.
  destruct (peak_fit _ _ _ _ _); auto.
Qed.

(** Peaks whose fits end well do not disturb the others. *)
Lemma chosen_q data peak seed m q q' : q < 1 -> q' < 1 -> (1 <= seed)%Z -> chosen data peak seed m q = chosen data peak seed m q'.
Proof.
  intros Q Q' S1. destruct (Z.lt_ge_cases seed m) as [M|M].
  - apply (radius_unique (passes data peak seed) seed m); auto; apply chosen_radius; auto.
  - rewrite !chosen_half by lia. reflexivity.
Qed.
Lemma separate data seed max : (1 <= seed)%Z ->
  forall peaks q, q < 1 ->
  (forall p d, In p peaks -> radius (passes data p seed) seed (Z.min (Z.of_nat (length data)) max) d -> passes data p seed d) ->
  (seed < Z.min (Z.of_nat (length data)) max)%Z ->
  forall ls, Forall2 (fun p l => find_peak_errors fit cov false data seed max [p] = inr l) peaks ls ->
  peaks_loop fit cov false data seed max q peaks = inr (concat ls).
Proof.
  intros S1 peaks. set (m := Z.min (Z.of_nat (length data)) max).
  induction peaks as [|p r IH]; intros q Q G M ls F; inversion F as [|? l ? ls' H1 H2]; subst; [reflexivity|].
  rewrite peaks_cons. cbn zeta. fold m. rewrite one_peak in H1. cbn zeta in H1. fold m in H1.
  rewrite (chosen_q data p seed m q 0 Q ltac:(lra) S1). set (d := chosen data p seed m 0) in *.
  assert (P : passes data p seed d) by (apply G; [left; auto|]; apply chosen_radius; [lra|lia]).
  destruct P as (q' & E & Q'). rewrite E in *. destruct (peak_of fit cov data p d) as [e|o]; [discriminate|].
  rewrite (IH q' Q') with (ls := ls'); auto; [|intros; eapply G; eauto; right; auto].
  injection H1 as <-. destruct o; reflexivity.
Qed.
End Fit.

(** ---- data on a parabola ---- *)
Lemma window_in data peak d t : In t (window data peak d) <->
  exists i, (i < length data)%nat /\ (Z.abs (Z.of_nat i - peak) <= d)%Z /\ t = (IZR (Z.of_nat i - peak), datum data i).
Proof.
  unfold window. rewrite in_map_iff. split.
  - intros (i & <- & I). apply filter_In in I. destruct I as [I N]. apply in_seq in I. unfold near in N. apply Z.leb_le in N.
    exists i. repeat split; auto; lia.
  - intros (i & I & N & ->). exists i. split; auto. apply filter_In. split; [apply in_seq; lia|]. apply Z.leb_le. auto.
Qed.
Lemma three_abscissas data peak d : (1 <= peak)%Z -> (peak + 2 <= Z.of_nat (length data))%Z -> (1 <= d)%Z ->
  In (-1) (map fst (window data peak d)) /\ In 0 (map fst (window data peak d)) /\ In 1 (map fst (window data peak d)).
Proof.
  intros A B D.
  assert (H : forall z, (-1 <= z <= 1)%Z -> In (IZR z) (map fst (window data peak d))).
  { intros z Z1. apply in_map_iff. exists (IZR (Z.of_nat (Z.to_nat (peak + z)) - peak), datum data (Z.to_nat (peak + z))).
    split; [cbn [fst]; f_equal; lia|]. apply window_in. exists (Z.to_nat (peak + z)). repeat split; lia. }
  repeat split; [apply (H (-1)%Z)|apply (H 0%Z)|apply (H 1%Z)]; lia.
Qed.
Lemma exact_fit fit data peak d p : fits fit -> (1 <= peak)%Z -> (peak + 2 <= Z.of_nat (length data))%Z -> (1 <= d)%Z ->
  (forall i, (i < length data)%nat -> (Z.abs (Z.of_nat i - peak) <= d)%Z -> datum data i = parabola p (IZR (Z.of_nat i - peak))) ->
  fit (window data peak d) = p.
Proof.
  intros F A B D E. destruct (three_abscissas data peak d A B D) as (I1 & I2 & I3).
  apply (least_unique (window data peak d) p _ (-1) 0 1); auto; try lra.
  apply exact_normal. intros xy I. apply window_in in I. destruct I as (i & I & N & ->). cbn [fst snd]. apply E; auto.
Qed.

(** ---- errors ---- *)
Definition dx (p : R * R * R) : list R := let '(p0, p1, p2) := p in [0; - 1 / 2 / p2; p1 / 2 / p2 / p2].
Definition dy (p : R * R * R) : list R := let '(p0, p1, p2) := p in [1; - p1 / 2 / p2; p1 * p1 / 4 / p2 / p2].
Lemma peak_of_cov fit cov data peak d p : peak_of fit cov data peak d = inr (Some p) ->
  let pts := window data peak d in
  let c := fun a b => sum_n 3 (fun m => sum_n 3 (fun l => nth l a 0 * cov pts m l) * nth m b 0) in
  let j1 := dx (fit pts) in let j2 := dy (fit pts) in
  snd (fit pts) <> 0 /\ pk_cov p = (c j1 j1, c j2 j1, c j1 j2, c j2 j2).
Proof.
  unfold peak_of. rewrite points_window. destruct (fit (window data peak d)) as [[p0 p1] p2] eqn:E.
  destruct (Req_EM_T p2 0) as [|N]; [discriminate|]. destruct (_ || _ || _)%bool; [discriminate|].
  intros H. injection H as <-. cbn zeta. split; auto.
Qed.

Lemma lim_id t : derivable_pt_lim id t 1. Proof. apply derivable_pt_lim_id. Qed.
Lemma lim_shift a : derivable_pt_lim (fun t => a + t) 0 1.
Proof.
  replace 1 with (0 + 1) by ring. apply (derivable_pt_lim_plus (fun _ => a) id); [apply derivable_pt_lim_const|apply lim_id].
Qed.
Lemma lim_eq f x a b : derivable_pt_lim f x a -> a = b -> derivable_pt_lim f x b.
Proof. intros H <-. exact H. Qed.
Lemma lim_par (a b c x : R -> R) a' b' c' x' :
  derivable_pt_lim a 0 a' -> derivable_pt_lim b 0 b' -> derivable_pt_lim c 0 c' -> derivable_pt_lim x 0 x' ->
  derivable_pt_lim (fun t => parabola (a t, b t, c t) (x t)) 0
    (a' + (b' * x 0 + b 0 * x') + ((c' * x 0 + c 0 * x') * x 0 + c 0 * x 0 * x')).
Proof.
  intros A B C X. unfold parabola.
  apply (derivable_pt_lim_plus (fun t => a t + b t * x t) (fun t => c t * x t * x t)).
  - apply (derivable_pt_lim_plus a (fun t => b t * x t)); auto. apply (derivable_pt_lim_mult b x); auto.
  - apply (derivable_pt_lim_mult (fun t => c t * x t) x); auto. apply (derivable_pt_lim_mult c x); auto.
Qed.
Lemma lim_topx (b c : R -> R) b' c' : c 0 <> 0 -> derivable_pt_lim b 0 b' -> derivable_pt_lim c 0 c' ->
  derivable_pt_lim (fun t => - b t / (2 * c t)) 0 ((- b' * (2 * c 0) - 2 * c' * - b 0) / (2 * c 0)²).
Proof.
  intros N B C. apply (derivable_pt_lim_div (fun t => - b t) (fun t => 2 * c t)).
  - apply (derivable_pt_lim_opp b); auto.
  - apply (derivable_pt_lim_scal c 2); auto.
  - lra.
Qed.
Lemma partial_x p k : snd p <> 0 -> (k < 3)%nat -> partial top_x p k (nth k (dx p) 0).
Proof.
  destruct p as [[p0 p1] p2]. cbn [snd]. intros N K. unfold partial, dx, top_x.
  destruct k as [|[|[|k]]]; [| | |lia]; cbn [shifted nth].
  - apply derivable_pt_lim_const.
  - eapply lim_eq; [apply (lim_topx (fun t => p1 + t) (fun _ => p2)); [auto|apply lim_shift|apply derivable_pt_lim_const]|].
    cbn beta. unfold Rsqr. field. auto.
  - eapply lim_eq; [apply (lim_topx (fun _ => p1) (fun t => p2 + t)); [rewrite Rplus_0_r; auto|apply derivable_pt_lim_const|apply lim_shift]|].
    cbn beta. rewrite Rplus_0_r. unfold Rsqr. field. auto.
Qed.
Lemma partial_y p k : snd p <> 0 -> (k < 3)%nat -> partial top_y p k (nth k (dy p) 0).
Proof.
  destruct p as [[p0 p1] p2]. cbn [snd]. intros N K. unfold partial, dy, top_y, top_x.
  destruct k as [|[|[|k]]]; [| | |lia]; cbn [shifted nth].
  - eapply lim_eq; [apply (lim_par (fun t => p0 + t) (fun _ => p1) (fun _ => p2) (fun _ => - p1 / (2 * p2)));
      [apply lim_shift|apply derivable_pt_lim_const..]|]. cbn beta. ring.
  - eapply lim_eq; [apply (lim_par (fun t => p0) (fun t => p1 + t) (fun _ => p2) (fun t => - (p1 + t) / (2 * p2)));
      [apply derivable_pt_lim_const|apply lim_shift|apply derivable_pt_lim_const|
       apply (lim_topx (fun t => p1 + t) (fun _ => p2)); [auto|apply lim_shift|apply derivable_pt_lim_const]]|].
    cbn beta. unfold Rsqr. field. auto.
  - eapply lim_eq; [apply (lim_par (fun t => p0) (fun t => p1) (fun t => p2 + t) (fun t => - p1 / (2 * (p2 + t))));
      [apply derivable_pt_lim_const|apply derivable_pt_lim_const|apply lim_shift|
       apply (lim_topx (fun _ => p1) (fun t => p2 + t)); [rewrite Rplus_0_r; auto|apply derivable_pt_lim_const|apply lim_shift]]|].
    cbn beta. rewrite !Rplus_0_r. unfold Rsqr. field. auto.
Qed.
Lemma errors fit cov data peak d p : peak_of fit cov data peak d = inr (Some p) ->
  let pts := window data peak d in
  forall Dx Dy : nat -> R,
  (forall k, (k < 3)%nat -> partial top_x (fit pts) k (Dx k)) -> (forall k, (k < 3)%nat -> partial top_y (fit pts) k (Dy k)) ->
  pk_cov p = (form (fun l m => cov pts m l) Dx Dx, form (fun l m => cov pts m l) Dy Dx,
              form (fun l m => cov pts m l) Dx Dy, form (fun l m => cov pts m l) Dy Dy).
Proof.
  intros H pts Dx Dy A B. destruct (peak_of_cov _ _ _ _ _ _ H) as [N E]. cbn zeta in E. fold pts in E, N. rewrite E.
  assert (X : forall k, (k < 3)%nat -> nth k (dx (fit pts)) 0 = Dx k).
  { intros k K. eapply uniqueness_limite; [apply (partial_x _ k N K)|apply A; auto]. }
  assert (Y : forall k, (k < 3)%nat -> nth k (dy (fit pts)) 0 = Dy k).
  { intros k K. eapply uniqueness_limite; [apply (partial_y _ k N K)|apply B; auto]. }
  unfold form. cbn [sum_n]. rewrite !X, !Y by lia. f_equal; [f_equal; [f_equal|]|]; ring.
Qed.
