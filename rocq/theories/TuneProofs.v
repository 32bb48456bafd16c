(** Lemmas for the tune from a Fourier transform. *)
From Coq Require Import Reals ZArith List Bool Lia Lra Arith Permutation Sorted.
From Verif Require Import PyLibModel PyLibProofs HitPyModel HitPySpec CommonModel CommonProofs GridProofs AlgoModel AlgoSpec
  TuneModel TuneSpec.
Import ListNotations.
Open Scope list_scope.
Open Scope R_scope.

(** ---- sums of cosines ---- *)
Lemma cos_telescope (theta phi : R) N :
  2 * sin (theta / 2) * sum_n N (fun m => cos (INR m * theta + phi)) =
  sin ((INR N - 1 / 2) * theta + phi) - sin (- (1 / 2) * theta + phi).
Proof.
  induction N as [|N IH].
  - cbn [sum_n INR]. replace ((0 - 1 / 2) * theta + phi) with (- (1 / 2) * theta + phi) by ring. ring.
  - cbn [sum_n]. rewrite Rmult_plus_distr_l, IH, S_INR.
    assert (E : 2 * sin (theta / 2) * cos (INR N * theta + phi) =
                sin ((INR N + 1 - 1 / 2) * theta + phi) - sin ((INR N - 1 / 2) * theta + phi)).
    { replace ((INR N + 1 - 1 / 2) * theta + phi) with ((INR N * theta + phi) + theta / 2) by field.
      replace ((INR N - 1 / 2) * theta + phi) with ((INR N * theta + phi) - theta / 2) by field.
      rewrite sin_plus, sin_minus. ring. }
    lra.
Qed.

Lemma sin_2PI_Z x (k : Z) : sin (x + 2 * PI * IZR k) = sin x.
Proof.
  destruct (Z_le_gt_dec 0 k) as [Hk|Hk].
  - rewrite <- (Z2Nat.id k Hk), <- INR_IZR_INZ. replace (x + 2 * PI * INR (Z.to_nat k)) with (x + 2 * INR (Z.to_nat k) * PI) by ring. apply sin_period.
  - replace k with (- Z.of_nat (Z.to_nat (- k)))%Z by lia. rewrite opp_IZR, <- INR_IZR_INZ.
    rewrite <- (sin_period (x + 2 * PI * - INR (Z.to_nat (- k))) (Z.to_nat (- k))). f_equal. ring.
Qed.

(** The sum over all samples vanishes unless the number of periods is a multiple of their number. *)
Lemma cos_sum N (j : Z) phi : (0 < N)%nat -> (0 < Z.abs j < Z.of_nat N)%Z ->
  sum_n N (fun m => cos (2 * PI * IZR j * INR m / INR N + phi)) = 0.
Proof.
  intros HN Hj. assert (PN : 0 < INR N) by (apply lt_0_INR; auto).
  set (theta := 2 * PI * IZR j / INR N).
  rewrite (sum_n_ext N _ (fun m => cos (INR m * theta + phi))).
  2:{ intros m Hm. f_equal. unfold theta. field. lra. }
  pose proof (cos_telescope theta phi N) as E.
  assert (Sn : sin (theta / 2) <> 0).
  { replace (theta / 2) with (PI * (IZR j / INR N)) by (unfold theta; field; lra).
    assert (B : 0 < Rabs (IZR j / INR N) < 1).
    { unfold Rdiv. rewrite Rabs_mult, (Rabs_right (/ INR N)) by (apply Rle_ge, Rlt_le, Rinv_0_lt_compat; auto).
      rewrite Rabs_Zabs. destruct Hj as [H1 H2]. apply IZR_lt in H1, H2. rewrite <- INR_IZR_INZ in H2. split.
      - apply Rmult_lt_0_compat; [auto|apply Rinv_0_lt_compat; auto].
      - apply (Rmult_lt_reg_r (INR N)); auto. rewrite Rmult_assoc, Rinv_l by lra. lra. }
    set (t := IZR j / INR N) in *. pose proof PI_RGT_0 as Pp. unfold Rabs in B. destruct (Rcase_abs t) as [T|T].
    - intros Z. pose proof (sin_gt_0 (PI * - t)) as G. replace (PI * - t) with (- (PI * t)) in G by ring. rewrite sin_neg, Z in G.
      assert (0 < - (PI * t)) by nra. assert (- (PI * t) < PI) by nra. specialize (G ltac:(lra) ltac:(lra)). lra.
    - pose proof (sin_gt_0 (PI * t)) as G. assert (0 < PI * t) by nra. assert (PI * t < PI) by nra. specialize (G ltac:(lra) ltac:(lra)). lra. }
  assert (Z : sin ((INR N - 1 / 2) * theta + phi) - sin (- (1 / 2) * theta + phi) = 0).
  { replace ((INR N - 1 / 2) * theta + phi) with ((- (1 / 2) * theta + phi) + 2 * PI * IZR j) by (unfold theta; field; lra).
    rewrite sin_2PI_Z. ring. }
  rewrite Z in E. apply Rmult_integral in E. destruct E as [E|E]; auto. exfalso. apply Sn. lra.
Qed.

Lemma sin_sum N (j : Z) phi : (0 < N)%nat -> (0 < Z.abs j < Z.of_nat N)%Z ->
  sum_n N (fun m => sin (2 * PI * IZR j * INR m / INR N + phi)) = 0.
Proof.
  intros HN Hj. rewrite <- (cos_sum N j (phi - PI / 2) HN Hj). apply sum_n_ext. intros m Hm.
  rewrite <- cos_shift. rewrite <- cos_neg. f_equal. ring.
Qed.

Lemma sum_const N c : sum_n N (fun _ => c) = INR N * c.
Proof. induction N as [|N IH]; [cbn; ring|]. cbn [sum_n]. rewrite IH, S_INR. ring. Qed.

Lemma nth_map_seq {A} (f : nat -> A) n i x : (i < n)%nat -> nth i (map f (seq 0 n)) x = f i.
Proof.
  intros Hi. rewrite (nth_indep _ x (f 0%nat)) by (rewrite map_length, seq_length; auto). rewrite map_nth, seq_nth; auto.
Qed.

Lemma tone_nth N q A phi m : (m < N)%nat -> nth m (tone N q A phi) 0 = A * cos (2 * PI * INR q * INR m / INR N + phi).
Proof. intros Hm. unfold tone. rewrite nth_map_seq; auto. Qed.
Lemma tone_length N q A phi : length (tone N q A phi) = N.
Proof. unfold tone. rewrite map_length, seq_length. auto. Qed.

Lemma tone_cos N q A phi i : (0 < q)%nat -> (0 < q + i < N)%nat ->
  sum_n N (fun m => nth m (tone N q A phi) 0 * cos (2 * PI * INR i * INR m / INR N)) =
  if Nat.eqb i q then A * INR N / 2 * cos phi else 0.
Proof.
  intros Hq Hi. assert (HN : (0 < N)%nat) by lia. assert (PN : 0 < INR N) by (apply lt_0_INR; auto).
  rewrite (sum_n_ext N _ (fun m => A / 2 * (cos (2 * PI * IZR (Z.of_nat q + Z.of_nat i) * INR m / INR N + phi) +
                                            cos (2 * PI * IZR (Z.of_nat q - Z.of_nat i) * INR m / INR N + phi)))).
  2:{ intros m Hm. rewrite tone_nth by auto. rewrite plus_IZR, minus_IZR, <- !INR_IZR_INZ.
      replace (2 * PI * (INR q + INR i) * INR m / INR N + phi) with ((2 * PI * INR q * INR m / INR N + phi) + 2 * PI * INR i * INR m / INR N) by (field; lra).
      replace (2 * PI * (INR q - INR i) * INR m / INR N + phi) with ((2 * PI * INR q * INR m / INR N + phi) - 2 * PI * INR i * INR m / INR N) by (field; lra).
      generalize (2 * PI * INR q * INR m / INR N + phi) (2 * PI * INR i * INR m / INR N). intros a b. rewrite cos_plus, cos_minus. field. }
  rewrite sum_n_scale, sum_n_plus, (cos_sum N (Z.of_nat q + Z.of_nat i)) by lia.
  destruct (Nat.eqb_spec i q) as [-> |Ne].
  - rewrite (sum_n_ext N _ (fun _ => cos phi)).
    2:{ intros m Hm. rewrite Z.sub_diag. f_equal. unfold Rdiv. ring. }
    rewrite sum_const. field.
  - rewrite (cos_sum N (Z.of_nat q - Z.of_nat i)) by lia. ring.
Qed.

Lemma tone_sin N q A phi i : (0 < q)%nat -> (0 < q + i < N)%nat ->
  sum_n N (fun m => nth m (tone N q A phi) 0 * sin (2 * PI * INR i * INR m / INR N)) =
  if Nat.eqb i q then - (A * INR N / 2 * sin phi) else 0.
Proof.
  intros Hq Hi. assert (HN : (0 < N)%nat) by lia. assert (PN : 0 < INR N) by (apply lt_0_INR; auto).
  rewrite (sum_n_ext N _ (fun m => A / 2 * (sin (2 * PI * IZR (Z.of_nat q + Z.of_nat i) * INR m / INR N + phi) +
                                            -1 * sin (2 * PI * IZR (Z.of_nat q - Z.of_nat i) * INR m / INR N + phi)))).
  2:{ intros m Hm. rewrite tone_nth by auto. rewrite plus_IZR, minus_IZR, <- !INR_IZR_INZ.
      replace (2 * PI * (INR q + INR i) * INR m / INR N + phi) with ((2 * PI * INR q * INR m / INR N + phi) + 2 * PI * INR i * INR m / INR N) by (field; lra).
      replace (2 * PI * (INR q - INR i) * INR m / INR N + phi) with ((2 * PI * INR q * INR m / INR N + phi) - 2 * PI * INR i * INR m / INR N) by (field; lra).
      generalize (2 * PI * INR q * INR m / INR N + phi) (2 * PI * INR i * INR m / INR N). intros a b. rewrite sin_plus, sin_minus. field. }
  rewrite sum_n_scale, sum_n_plus, sum_n_scale, (sin_sum N (Z.of_nat q + Z.of_nat i)) by lia.
  destruct (Nat.eqb_spec i q) as [-> |Ne].
  - rewrite (sum_n_ext N _ (fun _ => sin phi)).
    2:{ intros m Hm. rewrite Z.sub_diag. f_equal. unfold Rdiv. ring. }
    rewrite sum_const. field.
  - rewrite (sin_sum N (Z.of_nat q - Z.of_nat i)) by lia. ring.
Qed.

(** ---- indices ---- *)
Lemma find_index_some x l i : find_index x l = Some i -> (i < length l)%nat /\ nth i l 0 = x /\ forall j, (j < i)%nat -> nth j l 0 <> x.
Proof.
  revert i. induction l as [|y l IH]; intros i E; [discriminate|]. cbn [find_index] in E. destruct (Req_EM_T y x) as [-> |N].
  - injection E as <-. cbn. split; [lia|]. split; auto. lia.
  - destruct (find_index x l) as [j|]; [|discriminate]. injection E as <-. destruct (IH j eq_refl) as (A & B & C).
    cbn. split; [lia|]. split; auto. intros [|k] Hk; auto. apply C. lia.
Qed.

Lemma find_index_in x l : In x l -> exists i, find_index x l = Some i.
Proof.
  induction l as [|y l IH]; intros I; [destruct I|]. cbn [find_index]. destruct (Req_EM_T y x); [eauto|].
  destruct I as [-> |I]; [contradiction|]. destruct (IH I) as (i & ->). cbn. eauto.
Qed.

Lemma find_index_increasing l i : increasing_R l -> (i < length l)%nat -> find_index (nth i l 0) l = Some i.
Proof.
  intros Inc Hi. destruct (find_index_in (nth i l 0) l) as (j & E); [apply nth_In; auto|].
  destruct (find_index_some _ _ _ E) as (A & B & C). destruct (lt_eq_lt_dec i j) as [[L|Ej]|L]; [exfalso| subst; auto|exfalso].
  - apply (C i L). reflexivity.
  - pose proof (Inc j i L Hi). lra.
Qed.

Lemma max_list_spec l m : max_list l = Some m -> In m l /\ forall x, In x l -> x <= m.
Proof.
  destruct l as [|x l]; [discriminate|]. cbn [max_list]. intros E. injection E as E. revert x m E.
  induction l as [|y l IH]; intros x m E; cbn [fold_left] in E.
  - subst. split; [left; auto|]. intros z [<-|[]]. lra.
  - unfold rltb in E at 2. destruct (Rlt_dec x y) as [L|L].
    + destruct (IH _ _ E) as [A B]. split; [right; auto|]. intros z [<-|I]; auto. pose proof (B y (or_introl eq_refl)). lra.
    + destruct (IH _ _ E) as [A B]. split; [destruct A as [<-|A]; [left; auto|right; right; auto]|].
      intros z [<-|[<-|I]].
      * apply B. left. auto.
      * pose proof (B x (or_introl eq_refl)). lra.
      * apply B. right. auto.
Qed.

Lemma max_list_some l : l <> [] -> exists m, max_list l = Some m.
Proof. destruct l; [contradiction|]. cbn. eauto. Qed.

(** ---- refinement ---- *)
Lemma insert_at_length k x l : (k <= length l)%nat -> length (insert_at k x l) = S (length l).
Proof. intros H. unfold insert_at. rewrite app_length, firstn_length_le by auto. cbn [length]. rewrite skipn_length. lia. Qed.

Lemma insert_at_nth k x l i : (k <= length l)%nat ->
  nth i (insert_at k x l) 0 = if Nat.ltb i k then nth i l 0 else if Nat.eqb i k then x else nth (i - 1) l 0.
Proof.
  intros H. unfold insert_at. assert (L : length (firstn k l) = k) by (apply firstn_length_le; auto).
  destruct (Nat.ltb_spec i k) as [A|A].
  - rewrite app_nth1 by lia. rewrite <- (firstn_skipn k l) at 2. rewrite app_nth1 by lia. reflexivity.
  - rewrite app_nth2 by lia. rewrite L. destruct (Nat.eqb_spec i k) as [B|B].
    + subst. rewrite Nat.sub_diag. reflexivity.
    + destruct (i - k)%nat as [|m] eqn:E; [lia|]. cbn [nth]. rewrite <- (firstn_skipn k l) at 2.
      rewrite app_nth2 by lia. rewrite L. f_equal. lia.
Qed.

Lemma insert_at_map f k x l : map f (insert_at k x l) = insert_at k (f x) (map f l).
Proof. unfold insert_at. rewrite map_app, firstn_map. cbn [map]. rewrite skipn_map. reflexivity. Qed.

Lemma insert_at_increasing k x l : increasing_R l -> (1 <= k)%nat -> (k < length l)%nat ->
  nth (k - 1) l 0 < x -> x < nth k l 0 -> increasing_R (insert_at k x l).
Proof.
  intros Inc H1 H2 A B i j Hij Hj. rewrite insert_at_length in Hj by lia. rewrite !insert_at_nth by lia.
  assert (Le : forall a b, (a <= b)%nat -> (b < length l)%nat -> nth a l 0 <= nth b l 0).
  { intros a b Hab Hb. destruct (Nat.eq_dec a b) as [E|E]; [subst; lra|]. left. apply Inc; lia. }
  destruct (Nat.ltb_spec i k), (Nat.ltb_spec j k); try lia.
  - apply Inc; lia.
  - destruct (Nat.eqb_spec j k).
    + apply (Rle_lt_trans _ (nth (k - 1) l 0)); auto. apply Le; lia.
    + apply Inc; lia.
  - destruct (Nat.eqb_spec i k), (Nat.eqb_spec j k); try lia.
    + apply (Rlt_le_trans _ (nth k l 0)); auto. apply Le; lia.
    + apply Inc; lia.
Qed.

Lemma insert_at_in k x l y : In y l -> In y (insert_at k x l).
Proof.
  intros I. unfold insert_at. rewrite <- (firstn_skipn k l) in I. apply in_app_or in I. apply in_or_app.
  destruct I; auto. right. right. auto.
Qed.

Lemma insert_at_in2 k x l y : In y (insert_at k x l) -> y = x \/ In y l.
Proof.
  unfold insert_at. intros I. rewrite <- (firstn_skipn k l). apply in_app_or in I. destruct I as [I|[I|I]]; auto.
  - right. apply in_or_app. auto.
  - right. apply in_or_app. auto.
Qed.

Lemma nth_map_d {A} (f : A -> R) l i d : (i < length l)%nat -> nth i (map f l) 0 = f (nth i l d).
Proof. intros H. rewrite (nth_indep _ 0 (f d)) by (rewrite map_length; auto). apply map_nth. Qed.

Lemma nth_map_f (f : R -> R) l i : (i < length l)%nat -> nth i (map f l) 0 = f (nth i l 0).
Proof. intros H. rewrite (nth_indep _ 0 (f 0)) by (rewrite map_length; auto). apply map_nth. Qed.

Lemma refine_spec f tol delta a b : 0 < delta -> delta <= tol / 2 -> one_hill f a b -> forall fuel grid p,
  increasing_R grid -> grid_peak f grid p -> a <= nth (p - 1) grid 0 -> nth (p + 1) grid 0 <= b ->
  delta <= nth p grid 0 - nth (p - 1) grid 0 -> delta <= nth (p + 1) grid 0 - nth p grid 0 ->
  (nth (p + 1) grid 0 - nth (p - 1) grid 0) / delta < INR fuel ->
  exists grid' j, refine f tol fuel grid (map f grid) (nth p grid 0) = ((grid', map f grid'), inr (nth j grid' 0)) /\
    increasing_R grid' /\ incl grid grid' /\
    (forall y, In y grid' -> In y grid \/ nth (p - 1) grid 0 < y < nth (p + 1) grid 0) /\ grid_peak f grid' j /\
    nth (p - 1) grid 0 <= nth (j - 1) grid' 0 /\ nth (j + 1) grid' 0 <= nth (p + 1) grid 0 /\
    f (nth p grid 0) <= f (nth j grid' 0) /\
    (nth (j + 1) grid' 0 - nth j grid' 0 < tol \/ nth j grid' 0 - nth (j - 1) grid' 0 < tol) /\
    (forall c, symmetric_hill f a b c -> nth (p - 1) grid 0 <= c <= nth (p + 1) grid 0 ->
       (nth p grid 0 < c -> nth (p + 1) grid 0 - nth p grid 0 <= nth p grid 0 - nth (p - 1) grid 0) ->
       (c < nth p grid 0 -> nth p grid 0 - nth (p - 1) grid 0 <= nth (p + 1) grid 0 - nth p grid 0) ->
       Rabs (nth j grid' 0 - c) < tol).
Proof.
  intros D0 Dt Hill. induction fuel as [|fuel IH]; intros grid p Inc (P1 & P2 & FL & FR) Ha Hb DL DR Hf.
  { exfalso. cbn [INR] in Hf. assert (0 <= (nth (p + 1) grid 0 - nth (p - 1) grid 0) / delta); [|lra].
    apply Rmult_le_pos; [lra|]. left. apply Rinv_0_lt_compat. auto. }
  assert (Hf' : forall w, w <= nth (p + 1) grid 0 - nth (p - 1) grid 0 - delta -> w / delta < INR fuel).
  { intros w Hw. rewrite S_INR in Hf. apply (Rmult_lt_reg_r delta); auto. unfold Rdiv in *. rewrite Rmult_assoc, Rinv_l by lra.
    apply (Rmult_lt_compat_r delta) in Hf; auto. rewrite Rmult_assoc, Rinv_l in Hf by lra. lra. }
  cbn [refine]. rewrite (find_index_increasing grid p Inc) by lia. rewrite map_length.
  destruct (Nat.eqb_spec (length grid) 1); [lia|]. destruct (Nat.eqb_spec (p + 1) (length grid)); [lia|].
  assert (Bf : forall l, before l p = nth (p - 1) l 0).
  { intros l. destruct p as [|q]; [lia|]. cbn [before]. f_equal. lia. }
  rewrite !Bf, !nth_map_f by lia. set (xl := nth (p - 1) grid 0) in *. set (xm := nth p grid 0) in *. set (xr := nth (p + 1) grid 0) in *.
  unfold rltb at 1. destruct (Rlt_dec (f xl) (f xr)) as [Lr|Lr].
  - (* to the right *)
    unfold rltb at 1. destruct (Rlt_dec (Rabs (xr - xm)) tol) as [T|T].
    { exists grid, p. split; [reflexivity|]. split; [auto|]. split; [intros y; auto|]. split; [intros y; auto|]. split; [split; [auto|split; [auto|split; auto]]|].
      fold xl xm xr. split; [lra|]. split; [lra|]. split; [lra|]. rewrite Rabs_right in T by lra. split; [left; lra|].
      intros c Sy C1 C2 C3. apply Sy in Lr; [|lra|lra]. unfold Rabs in *; repeat destruct (Rcase_abs _); lra. }
    rewrite Rabs_right in T by lra. set (x := (xm + xr) / 2).
    assert (X : xm < x < xr) by (unfold x; lra).
    assert (X1 : x = (xm + xr) / 2) by reflexivity.
    assert (Hx : Rmin (f xm) (f xr) < f x) by (apply Hill; lra). rewrite Rmin_right in Hx by lra.
    set (grid' := insert_at (p + 1) x grid).
    assert (Inc' : increasing_R grid').
    { apply insert_at_increasing; auto; try lia; fold xr; replace (p + 1 - 1)%nat with p by lia; fold xm; lra. }
    assert (Ins : incl grid grid') by (intros y; apply insert_at_in).
    assert (Ins2 : forall y, In y grid' -> y = x \/ In y grid) by (intros y; apply insert_at_in2).
    assert (N1 : forall i, nth i grid' 0 = if Nat.ltb i (p + 1) then nth i grid 0 else if Nat.eqb i (p + 1) then x else nth (i - 1) grid 0).
    { intros i. apply insert_at_nth. lia. }
    assert (Len : length grid' = S (length grid)) by (apply insert_at_length; lia).
    assert (G0 : nth (p - 1) grid' 0 = xl) by (rewrite N1; destruct (Nat.ltb_spec (p - 1) (p + 1)); [reflexivity|lia]).
    assert (G1 : nth p grid' 0 = xm) by (rewrite N1; destruct (Nat.ltb_spec p (p + 1)); [reflexivity|lia]).
    assert (G2 : nth (p + 1) grid' 0 = x) by (rewrite N1, Nat.ltb_irrefl, Nat.eqb_refl; reflexivity).
    assert (G3 : nth (p + 1 + 1) grid' 0 = xr).
    { rewrite N1. destruct (Nat.ltb_spec (p + 1 + 1) (p + 1)); [lia|]. destruct (Nat.eqb_spec (p + 1 + 1) (p + 1)); [lia|].
      unfold xr. f_equal. lia. }
    rewrite <- insert_at_map. fold grid'. rewrite G2.
    unfold rltb at 1 2 3 4 5. destruct (Rlt_dec (f xm) (f x)) as [A|A].
    + destruct (Rlt_dec (f xr) (f x)) as [_|B]; [|lra]. cbn [andb].
      destruct (IH grid' (p + 1)%nat) as (g & j & E & Q1 & Q2 & Q0 & Q3 & Q4 & Q5 & Q6 & Q7 & Q8); try (replace (p + 1 - 1)%nat with p by lia); rewrite ?G1, ?G2, ?G3; auto; try lra.
      { split; [lia|]. split; [lia|]. replace (p + 1 - 1)%nat with p by lia. rewrite G1, G2, G3. lra. }
      { apply Hf'. lra. }
      replace (p + 1 - 1)%nat with p in * by lia. rewrite G1, G2, G3 in *. exists g, j. split; [exact E|]. split; auto.
      split; [intros y Y; apply Q2, Ins, Y|].
      split; [intros y Y; destruct (Q0 y Y) as [Y'|Y']; [destruct (Ins2 y Y') as [-> |Y'']; [right; lra|left; exact Y'']|right; lra]|].
      split; auto. split; [lra|]. split; [lra|]. split; [lra|]. split; [auto|].
      intros c Sy C1 C2 C3. apply Sy in Lr; [|lra|lra]. apply Q8; auto; unfold Rabs in *; repeat destruct (Rcase_abs _); lra.
    + cbn [andb]. destruct (Rlt_dec (f x) (f xm)) as [B|B]; destruct (Rlt_dec (f x) (f xr)) as [C|C]; try lra; cbn [andb];
        (destruct (Rlt_dec (f xr) (f xm)) as [_|C']; [|lra]); rewrite G1;
        (destruct (IH grid' p) as (g & j & E & Q1 & Q2 & Q0 & Q3 & Q4 & Q5 & Q6 & Q7 & Q8); rewrite ?G0, ?G1, ?G2; auto; try lra;
         [split; [lia|]; split; [lia|]; rewrite G0, G1, G2; lra | apply Hf'; lra |]);
        rewrite G0, G1, G2 in *; exists g, j; (split; [exact E|]); (split; [auto|]); (split; [intros y Y; apply Q2, Ins, Y|]);
        (split; [intros y Y; destruct (Q0 y Y) as [Y'|Y']; [destruct (Ins2 y Y') as [-> |Y'']; [right; lra|left; exact Y'']|right; lra]|]); (split; [auto|]);
        (split; [lra|]); (split; [lra|]); (split; [lra|]); (split; [auto|]);
        intros c Sy C1 C2 C3; (assert (Lx : ~ Rabs (x - c) < Rabs (xm - c)) by (intros Z; apply A, Sy; lra)); (apply Sy in Lr; [|lra|lra]); (apply Q8; auto);
        unfold Rabs in *; repeat destruct (Rcase_abs _); lra.
  - (* to the left *)
    unfold rltb at 1. destruct (Rlt_dec (Rabs (xm - xl)) tol) as [T|T].
    { exists grid, p. split; [reflexivity|]. split; [auto|]. split; [intros y; auto|]. split; [intros y; auto|]. split; [split; [auto|split; [auto|split; auto]]|].
      fold xl xm xr. split; [lra|]. split; [lra|]. split; [lra|]. rewrite Rabs_right in T by lra. split; [right; lra|].
      intros c Sy C1 C2 C3. assert (Lc : ~ Rabs (xr - c) < Rabs (xl - c)) by (intros Z; apply Lr, Sy; lra).
      unfold Rabs in *; repeat destruct (Rcase_abs _); lra. }
    rewrite Rabs_right in T by lra. set (x := (xl + xm) / 2).
    assert (X : xl < x < xm) by (unfold x; lra).
    assert (X1 : x = (xl + xm) / 2) by reflexivity.
    assert (Hx : Rmin (f xl) (f xm) < f x) by (apply Hill; lra). rewrite Rmin_left in Hx by lra.
    set (grid' := insert_at p x grid).
    assert (Inc' : increasing_R grid') by (apply insert_at_increasing; auto; try lia; fold xl xm; lra).
    assert (Ins : incl grid grid') by (intros y; apply insert_at_in).
    assert (Ins2 : forall y, In y grid' -> y = x \/ In y grid) by (intros y; apply insert_at_in2).
    assert (N1 : forall i, nth i grid' 0 = if Nat.ltb i p then nth i grid 0 else if Nat.eqb i p then x else nth (i - 1) grid 0).
    { intros i. apply insert_at_nth. lia. }
    assert (Len : length grid' = S (length grid)) by (apply insert_at_length; lia).
    assert (G0 : nth (p - 1) grid' 0 = xl) by (rewrite N1; destruct (Nat.ltb_spec (p - 1) p); [reflexivity|lia]).
    assert (G1 : nth p grid' 0 = x) by (rewrite N1, Nat.ltb_irrefl, Nat.eqb_refl; reflexivity).
    assert (G2 : nth (p + 1) grid' 0 = xm).
    { rewrite N1. destruct (Nat.ltb_spec (p + 1) p); [lia|]. destruct (Nat.eqb_spec (p + 1) p); [lia|]. unfold xm. f_equal. lia. }
    assert (G3 : nth (p + 1 + 1) grid' 0 = xr).
    { rewrite N1. destruct (Nat.ltb_spec (p + 1 + 1) p); [lia|]. destruct (Nat.eqb_spec (p + 1 + 1) p); [lia|]. unfold xr. f_equal. lia. }
    rewrite <- insert_at_map. fold grid'. rewrite G1, G2.
    unfold rltb at 1 2 3 4 5. destruct (Rlt_dec (f xl) (f x)) as [_|A]; [|lra]. destruct (Rlt_dec (f xm) (f x)) as [A|A]; cbn [andb].
    + destruct (IH grid' p) as (g & j & E & Q1 & Q2 & Q0 & Q3 & Q4 & Q5 & Q6 & Q7 & Q8); rewrite ?G0, ?G1, ?G2; auto; try lra.
      { split; [lia|]. split; [lia|]. rewrite G0, G1, G2. lra. }
      { apply Hf'. lra. }
      rewrite G0, G1, G2 in *. exists g, j. split; [exact E|]. split; auto.
      split; [intros y Y; apply Q2, Ins, Y|].
      split; [intros y Y; destruct (Q0 y Y) as [Y'|Y']; [destruct (Ins2 y Y') as [-> |Y'']; [right; lra|left; exact Y'']|right; lra]|].
      split; auto. split; [lra|]. split; [lra|]. split; [lra|]. split; [auto|].
      intros c Sy C1 C2 C3. assert (Lc : ~ Rabs (xr - c) < Rabs (xl - c)) by (intros Z; apply Lr, Sy; lra). apply Q8; auto; unfold Rabs in *; repeat destruct (Rcase_abs _); lra.
    + destruct (Rlt_dec (f x) (f xl)) as [B|B]; [lra|]. cbn [andb]. destruct (Rlt_dec (f xm) (f xl)) as [C|_]; [lra|].
      destruct (IH grid' (p + 1)%nat) as (g & j & E & Q1 & Q2 & Q0 & Q3 & Q4 & Q5 & Q6 & Q7 & Q8); try (replace (p + 1 - 1)%nat with p by lia); rewrite ?G1, ?G2, ?G3; auto; try lra.
      { split; [lia|]. split; [lia|]. replace (p + 1 - 1)%nat with p by lia. rewrite G1, G2, G3. lra. }
      { apply Hf'. lra. }
      replace (p + 1 - 1)%nat with p in * by lia. rewrite G1, G2, G3 in *. exists g, j. split; [exact E|]. split; auto.
      split; [intros y Y; apply Q2, Ins, Y|].
      split; [intros y Y; destruct (Q0 y Y) as [Y'|Y']; [destruct (Ins2 y Y') as [-> |Y'']; [right; lra|left; exact Y'']|right; lra]|].
      split; auto. split; [lra|]. split; [lra|]. split; [lra|]. split; [auto|].
      intros c Sy C1 C2 C3. assert (Lc : ~ Rabs (xr - c) < Rabs (xl - c)) by (intros Z; apply Lr, Sy; lra).
      assert (Lx : ~ Rabs (x - c) < Rabs (xm - c)) by (intros Z; apply A, Sy; lra). apply Q8; auto; unfold Rabs in *; repeat destruct (Rcase_abs _); lra.
Qed.

(** ---- the transform ---- *)
Definition freq (N : nat) : list R := map (fun i => INR i / (INR N + 1)) (seq 0 ((N + 1) / 2)).

Lemma freq_length N : length (freq N) = ((N + 1) / 2)%nat.
Proof. unfold freq. rewrite map_length, seq_length. reflexivity. Qed.

Lemma freq_nth N i : (i < (N + 1) / 2)%nat -> nth i (freq N) 0 = INR i / (INR N + 1).
Proof. intros H. unfold freq. rewrite nth_map_seq; auto. Qed.

Lemma N1_pos N : 0 < INR N + 1.
Proof. pose proof (pos_INR N). lra. Qed.

Lemma freq_increasing N : increasing_R (freq N).
Proof.
  intros i j Hij Hj. rewrite freq_length in Hj. rewrite !freq_nth by lia. unfold Rdiv.
  apply Rmult_lt_compat_r; [apply Rinv_0_lt_compat, N1_pos|]. apply lt_INR. auto.
Qed.

Lemma sft_magnitude u k : u <> [] -> sft false u k = magnitude u (k * (INR (length u) + 1) / INR (length u)).
Proof.
  intros Hu. assert (P : 0 < INR (length u)) by (apply lt_0_INR; destruct u; [contradiction|cbn; lia]).
  unfold sft, magnitude. cbv zeta.
  assert (A : forall m, 2 * PI * INR m * k * (INR (length u) + 1) / INR (length u) = 2 * PI * (k * (INR (length u) + 1) / INR (length u)) * INR m)
    by (intros m; field; lra).
  f_equal. f_equal; (apply (f_equal (fun z => z ^ 2)); apply sum_n_ext; intros m _; rewrite A; ring).
Qed.

Lemma odd_half N : Nat.even N = false -> (N / 2 + 1 = (N + 1) / 2 /\ 2 * ((N + 1) / 2) = N + 1)%nat.
Proof.
  intros E. rewrite <- Nat.negb_odd, negb_false_iff in E. apply Nat.odd_spec in E. destruct E as (m & ->).
  replace (2 * m + 1 + 1)%nat with ((m + 1) * 2)%nat by lia. rewrite Nat.div_mul by lia.
  replace (2 * m + 1)%nat with (1 + m * 2)%nat by lia. rewrite Nat.div_add by lia. cbn. lia.
Qed.

Lemma half_INR N : Nat.even N = false -> 2 * INR ((N + 1) / 2) = INR N + 1.
Proof. intros E. destruct (odd_half N E) as (_ & H). apply (f_equal INR) in H. rewrite mult_INR, plus_INR in H. cbn [INR] in H. lra. Qed.

Lemma fft_lists rfft u : is_rfft rfft -> Nat.even (length u) = false ->
  map (fun i => INR i / 2 / INR (length (rfft u))) (seq 0 (length (rfft u))) = freq (length u) /\
  map (fun z => sqrt (fst z ^ 2 + snd z ^ 2)) (rfft u) = map (sft false u) (freq (length u)).
Proof.
  intros F E. assert (Hu : u <> []) by (intros ->; discriminate).
  assert (P : 0 < INR (length u)) by (apply lt_0_INR; destruct u; [contradiction|cbn; lia]).
  destruct (odd_half _ E) as (H1 & H2). pose proof (half_INR _ E) as H3. destruct (F u Hu) as (L & V). rewrite H1 in L.
  assert (M : map (fun i => INR i / 2 / INR (length (rfft u))) (seq 0 (length (rfft u))) = freq (length u)).
  { rewrite L. unfold freq. apply map_ext. intros i. rewrite <- H3. field. intros Z. rewrite Z in H3. lra. }
  split; [exact M|]. apply (nth_ext _ _ 0 0); [rewrite !map_length, freq_length; auto|].
  intros i Hi. rewrite map_length in Hi. rewrite nth_map_f by (rewrite freq_length; lia).
  rewrite (nth_map_d _ _ _ (0, 0)) by auto. rewrite V by auto. cbn [fst snd]. rewrite freq_nth by lia. rewrite sft_magnitude by auto. unfold magnitude.
  assert (A : forall m, 2 * PI * INR i * INR m / INR (length u) = 2 * PI * (INR i / (INR (length u) + 1) * (INR (length u) + 1) / INR (length u)) * INR m).
  { intros m. field. lra. }
  f_equal. f_equal.
  - apply (f_equal (fun z => z ^ 2)). apply sum_n_ext. intros m _. rewrite A. reflexivity.
  - transitivity ((sum_n (length u) (fun m => nth m u 0 * sin (2 * PI * INR i * INR m / INR (length u)))) ^ 2); [ring|].
    apply (f_equal (fun z => z ^ 2)). apply sum_n_ext. intros m _. rewrite A. reflexivity.
Qed.

Lemma sft_freq u i : Nat.even (length u) = false -> sft false u (INR i / (INR (length u) + 1)) = magnitude u (INR i / INR (length u)).
Proof.
  intros E. assert (Hu : u <> []) by (intros ->; discriminate).
  assert (P : 0 < INR (length u)) by (apply lt_0_INR; destruct u; [contradiction|cbn; lia]).
  rewrite sft_magnitude by auto. f_equal. field. lra.
Qed.

(** ---- the peaks ---- *)
Lemma nat_order : weak_order Nat.ltb.
Proof.
  constructor; intros.
  - apply Nat.ltb_irrefl.
  - rewrite Nat.ltb_lt in *. apply Nat.ltb_ge. lia.
  - rewrite Nat.ltb_ge in *. lia.
Qed.

Lemma find_peaks_some find st l : find (t_k_y st) = inr l -> NoDup l -> (forall i, In i l -> (i < length (t_k_y st))%nat) -> l <> [] ->
  exists ps, find_peaks find st = (mkTune (t_u st) (t_up st) (t_tune st) (map (fun i => nth i (t_k_x st) 0) ps)
      (map (fun i => nth i (t_k_y st) 0) ps) (t_k_x st) (t_k_y st), None) /\
    NoDup ps /\ forall i, In i ps <-> (In i l /\ i <> 0%nat).
Proof.
  intros F ND B Ne. unfold find_peaks. rewrite F.
  assert (SI : forall i, In i (sort Nat.ltb l) <-> In i l) by (intros; apply sort_in).
  assert (SD : NoDup (sort Nat.ltb l)) by (apply (Permutation_NoDup (l := l)); [symmetry; apply sort_perm|auto]).
  pose proof (sort_sorted Nat.ltb nat_order l) as SS. destruct (sort Nat.ltb l) as [|p r] eqn:E.
  { exfalso. destruct l as [|x l]; [contradiction|]. apply (SI x). left. reflexivity. }
  inversion SD; subst. inversion SS; subst. rewrite Forall_forall in *.
  assert (Fb : forallb (fun i => Nat.ltb i (length (t_k_y st))) (match p with O => r | _ => p :: r end) = true).
  { apply forallb_forall. intros i Hi. apply Nat.ltb_lt, B, SI. destruct p; [right|]; auto. }
  rewrite Fb. eexists. split; [reflexivity|]. split; [destruct p; auto|]. intros i. rewrite <- SI. destruct p as [|p].
  - split; [intros I; split; [right; auto|intros ->; contradiction]|]. intros ([<-|I] & Hi); [contradiction|auto].
  - split; [|tauto]. intros I. split; auto. intros ->. destruct I as [I|I]; [discriminate|].
    match goal with HF : forall x, In x r -> le _ _ _ |- _ => specialize (HF _ I) end. unfold le in *. discriminate.
Qed.

Lemma find_peaks_none find st : find (t_k_y st) = inr [] -> find_peaks find st = (st, None).
Proof. intros F. unfold find_peaks. rewrite F. reflexivity. Qed.

(** ---- the highest peak ---- *)
Lemma get_max_peak_some st ps : increasing_R (t_k_x st) -> length (t_k_y st) = length (t_k_x st) ->
  t_peak_x st = map (fun i => nth i (t_k_x st) 0) ps -> (forall i, In i ps -> (i < length (t_k_x st))%nat) -> ps <> [] ->
  exists j, get_max_peak st = (mkTune (t_u st) (t_up st) (Some (nth j (t_k_x st) 0)) (t_peak_x st) (t_peak_y st) (t_k_x st) (t_k_y st), None) /\
    (j < length (t_k_x st))%nat /\ (exists p, In p ps /\ nth p (t_k_y st) 0 = nth j (t_k_y st) 0) /\
    (forall q, In q ps -> nth q (t_k_y st) 0 <= nth j (t_k_y st) 0) /\
    (forall i, (i < j)%nat -> nth i (t_k_y st) 0 <> nth j (t_k_y st) 0).
Proof.
  intros Inc Len Px B Ne. unfold get_max_peak.
  assert (Fb : forallb (fun k => match find_index k (t_k_x st) with Some _ => true | None => false end) (t_peak_x st) = true).
  { rewrite Px. apply forallb_forall. intros k Hk. apply in_map_iff in Hk. destruct Hk as (i & <- & Hi).
    rewrite find_index_increasing; auto. }
  rewrite Fb.
  assert (Vs : map (fun k => match find_index k (t_k_x st) with Some i => nth i (t_k_y st) 0 | None => 0 end) (t_peak_x st) =
               map (fun i => nth i (t_k_y st) 0) ps).
  { rewrite Px, map_map. apply map_ext_in. intros i Hi. rewrite find_index_increasing; auto. }
  rewrite Vs. destruct (max_list_some (map (fun i => nth i (t_k_y st) 0) ps)) as (m & M).
  { destruct ps; [contradiction|discriminate]. }
  rewrite M. destruct (max_list_spec _ _ M) as (I & Mx). apply in_map_iff in I. destruct I as (p & <- & Hp).
  destruct (find_index_in (nth p (t_k_y st) 0) (t_k_y st)) as (j & J); [apply nth_In; rewrite Len; auto|].
  rewrite J. destruct (find_index_some _ _ _ J) as (J1 & J2 & J3). exists j. split; [reflexivity|]. split; [lia|].
  split; [exists p; auto|]. rewrite J2. split; auto. intros q Hq. apply Mx. apply in_map_iff. exists q. auto.
Qed.

Lemma get_max_peak_again st st' : get_max_peak st = (st', None) -> get_max_peak st' = (st', None).
Proof.
  unfold get_max_peak. destruct st as [u up t px py kx ky]. cbn [t_u t_up t_tune t_peak_x t_peak_y t_k_x t_k_y].
  destruct (forallb _ px) eqn:F; [|discriminate].
  destruct (max_list _) as [m|] eqn:M; [|discriminate]. destruct (find_index m ky) as [i|] eqn:I; [|discriminate].
  intros E. injection E as <-. cbn [t_u t_up t_tune t_peak_x t_peak_y t_k_x t_k_y]. rewrite F, M, I. reflexivity.
Qed.

Definition answer (r : Tune * option TErr) : Tune * (TErr + R) :=
  match r with
  | (st, Some e) => (st, inl e)
  | (st, None) => match t_tune st with Some x => (st, inr x) | None => (st, inl TValue) end
  end.

Lemma get_tune_start rfft find hanning fuel tol st u l : is_rfft rfft -> t_u st = Some u -> Nat.even (length u) = false ->
  find (map (sft false u) (freq (length u))) = inr l -> NoDup l -> (forall i, In i l -> (i < length (freq (length u)))%nat) ->
  (exists i, In i l /\ i <> 0%nat) ->
  exists ps j, NoDup ps /\ (forall i, In i ps <-> (In i l /\ i <> 0%nat)) /\
    let st1 := mkTune (Some u) (t_up st) (Some (nth j (freq (length u)) 0)) (map (fun i => nth i (freq (length u)) 0) ps)
      (map (fun i => nth i (map (sft false u) (freq (length u))) 0) ps) (freq (length u)) (map (sft false u) (freq (length u))) in
    get_tune rfft find hanning fuel (Some tol) st =
      answer (if rltb tol (1 / INR (length (freq (length u)))) then
                and_then (refine_peaks hanning u tol fuel (length ps) 0 st1) get_max_peak
              else (st1, None)) /\
    (j < length (freq (length u)))%nat /\
    (exists p, In p ps /\ sft false u (nth p (freq (length u)) 0) = sft false u (nth j (freq (length u)) 0)) /\
    (forall q, In q ps -> sft false u (nth q (freq (length u)) 0) <= sft false u (nth j (freq (length u)) 0)) /\
    (forall i, (i < j)%nat -> sft false u (nth i (freq (length u)) 0) <> sft false u (nth j (freq (length u)) 0)).
Proof.
  intros F U E Fd ND B (i0 & I0 & Z0). destruct (fft_lists rfft u F E) as (Lx & Ly).
  unfold get_tune. rewrite U. unfold make_odd. rewrite E. cbv zeta. unfold fft_find_peaks. rewrite Lx, Ly.
  set (kx := freq (length u)) in *. set (ky := map (sft false u) kx) in *.
  destruct (find_peaks_some find (mkTune (t_u st) (t_up st) (t_tune st) (t_peak_x st) (t_peak_y st) kx ky) l) as (ps & FP & PD & PS); auto.
  { intros i Hi. cbn [t_k_y]. unfold ky. rewrite map_length. auto. }
  { intros ->. destruct I0. }
  rewrite FP. cbn [t_u t_up t_tune t_peak_x t_peak_y t_k_x t_k_y and_then]. rewrite U.
  assert (Bp : forall i, In i ps -> (i < length kx)%nat) by (intros i Hi; apply B, PS, Hi).
  assert (Ne : ps <> []) by (intros Z; subst ps; apply (PS i0); auto).
  set (st0 := mkTune (Some u) (t_up st) (t_tune st) (map (fun i => nth i kx 0) ps) (map (fun i => nth i ky 0) ps) kx ky).
  destruct (get_max_peak_some st0 ps) as (j & G & J1 & (p & J2 & J3) & J4 & J5); auto.
  { apply freq_increasing. }
  { cbn. unfold ky. apply map_length. }
  cbn [st0 t_u t_up t_tune t_peak_x t_peak_y t_k_x t_k_y] in G, J1, J3, J4, J5.
  exists ps, j. split; [exact PD|]. split; [exact PS|]. cbv zeta. split.
  - rewrite G. cbn [and_then t_u t_up t_tune t_peak_x t_peak_y t_k_x t_k_y]. rewrite map_length.
    destruct (Nat.eqb_spec (length ps) 0) as [Z|_]; [destruct ps; [contradiction|discriminate]|]. cbn [and_then].
    rewrite (get_max_peak_again _ _ G). cbn [and_then t_u t_up t_tune t_peak_x t_peak_y t_k_x t_k_y]. rewrite map_length. reflexivity.
  - assert (V : forall i, (i < length kx)%nat -> nth i ky 0 = sft false u (nth i kx 0)) by (intros i Hi; apply nth_map_f; auto).
    split; auto. rewrite !V in J3 by auto. rewrite (V j) in J4, J5 by auto. split; [exists p; auto|]. split.
    + intros q Hq. rewrite <- V by auto. auto.
    + intros i Hi. rewrite <- V by lia. auto.
Qed.

Lemma get_tune_fails rfft find hanning fuel tol u up l : is_rfft rfft -> Nat.even (length u) = false ->
  find (map (sft false u) (freq (length u))) = inr l -> l = [] \/ l = [0%nat] ->
  snd (get_tune rfft find hanning fuel tol (new_tune (Some u) up)) = inl TValue.
Proof.
  intros F E Fd L. destruct (fft_lists rfft u F E) as (Lx & Ly).
  unfold get_tune, new_tune. cbn [t_u]. unfold make_odd. rewrite E. cbv zeta. unfold fft_find_peaks. rewrite Lx, Ly.
  cbn [t_u t_up t_tune t_peak_x t_peak_y t_k_x t_k_y]. unfold find_peaks. cbn [t_u t_up t_tune t_peak_x t_peak_y t_k_x t_k_y]. rewrite Fd.
  destruct L as [-> | ->]; reflexivity.
Qed.

Lemma spectrum_sft u : Nat.even (length u) = false -> spectrum u = map (sft false u) (freq (length u)).
Proof.
  intros E. unfold spectrum, freq. rewrite map_map. apply map_ext. intros i. rewrite sft_freq; auto.
Qed.

Lemma refine_slope f tol : 0 < tol -> forall fuel grid p, increasing_R grid -> (1 <= p)%nat -> (p + 1 < length grid)%nat ->
  (forall k, let x := fun k => nth p grid 0 + (nth (p + 1) grid 0 - nth p grid 0) / 2 ^ k in
     f (nth (p - 1) grid 0) < f (x k) < f (nth p grid 0) /\ f (x k) <= f (x (S k))) ->
  nth (p + 1) grid 0 - nth p grid 0 < tol * 2 ^ fuel ->
  exists grid', refine f tol (S fuel) grid (map f grid) (nth p grid 0) = ((grid', map f grid'), inr (nth p grid 0)) /\
    increasing_R grid' /\ (p + 1 < length grid')%nat /\ forall i, (i <= p)%nat -> nth i grid' 0 = nth i grid 0.
Proof.
  intros T0. induction fuel as [|fuel IH]; intros grid p Inc P1 P2 H Hf.
  2: remember (S fuel) as more eqn:More.
  all: cbn [refine]; rewrite (find_index_increasing grid p Inc) by lia; rewrite map_length.
  all: destruct (Nat.eqb_spec (length grid) 1); [lia|]; destruct (Nat.eqb_spec (p + 1) (length grid)); [lia|].
  all: assert (Bf : forall l, before l p = nth (p - 1) l 0) by (intros l; destruct p as [|q]; [lia|]; cbn [before]; f_equal; lia).
  all: rewrite !Bf, !nth_map_f by lia; set (xl := nth (p - 1) grid 0) in *; set (xm := nth p grid 0) in *; set (xr := nth (p + 1) grid 0) in *.
  all: assert (X : xm < xr) by (apply Inc; lia).
  all: assert (H0 : f xl < f xr < f xm) by (destruct (H 0%nat) as (A & _); cbv beta zeta in A; cbn [pow] in A;
    replace (xm + (xr - xm) / 1) with xr in A by field; exact A).
  all: unfold rltb at 1; destruct (Rlt_dec (f xl) (f xr)) as [_|Z]; [|lra].
  all: unfold rltb at 1; rewrite Rabs_right by lra; destruct (Rlt_dec (xr - xm) tol) as [T|T].
  - exists grid. repeat split; auto.
  - cbn [pow] in Hf. lra.
  - exists grid. repeat split; auto.
  - set (x := (xm + xr) / 2). assert (X1 : x = (xm + xr) / 2) by reflexivity.
    assert (H1 : f xl < f x < f xm /\ f xr <= f x).
    { pose proof (H 1%nat) as (A & _). pose proof (H 0%nat) as (_ & B). cbv beta zeta in A, B. cbn [pow] in A, B.
      replace (xm + (xr - xm) / 1) with xr in B by field. replace (xm + (xr - xm) / (2 * 1)) with x in A, B by (unfold x; field). tauto. }
    destruct H1 as (H1 & H2). unfold rltb at 1 2 3 4 5.
    destruct (Rlt_dec (f xm) (f x)) as [Z|_]; [lra|]. cbn [andb]. destruct (Rlt_dec (f x) (f xm)) as [_|Z]; [|lra].
    destruct (Rlt_dec (f x) (f xr)) as [Z|_]; [lra|]. cbn [andb]. destruct (Rlt_dec (f xr) (f xm)) as [_|Z]; [|lra].
    set (grid' := insert_at (p + 1) x grid).
    assert (Inc' : increasing_R grid').
    { apply insert_at_increasing; auto; try lia; fold xr; replace (p + 1 - 1)%nat with p by lia; fold xm; lra. }
    assert (N1 : forall i, nth i grid' 0 = if Nat.ltb i (p + 1) then nth i grid 0 else if Nat.eqb i (p + 1) then x else nth (i - 1) grid 0).
    { intros i. apply insert_at_nth. lia. }
    assert (Len : length grid' = S (length grid)) by (apply insert_at_length; lia).
    assert (G : forall i, (i <= p)%nat -> nth i grid' 0 = nth i grid 0).
    { intros i Hi. rewrite N1. destruct (Nat.ltb_spec i (p + 1)); [reflexivity|lia]. }
    assert (G2 : nth (p + 1) grid' 0 = x) by (rewrite N1, Nat.ltb_irrefl, Nat.eqb_refl; reflexivity).
    rewrite <- insert_at_map. fold grid'. destruct (IH grid' p) as (g & E & Q1 & Q2 & Q3); auto; try lia.
    + intros k. cbv zeta. rewrite !G by lia. rewrite G2. fold xl xm.
      replace (x - xm) with ((xr - xm) / 2) by (unfold x; field). pose proof (H (S k)) as HS. cbv beta zeta in HS.
      assert (E : forall m, (xr - xm) / 2 / 2 ^ m = (xr - xm) / 2 ^ S m).
      { intros m. cbn [pow]. field. apply pow_nonzero. lra. }
      rewrite !E. exact HS.
    + rewrite G2, G by lia. fold xm. subst more. cbn [pow] in Hf. lra.
    + exists g. rewrite G in E by lia. fold xm in E. rewrite G by lia. fold xm. split; [exact E|]. split; auto. split; auto.
      intros i Hi. rewrite Q3, G by lia. reflexivity.
Qed.

Lemma spectrum_length u : length (spectrum u) = ((length u + 1) / 2)%nat.
Proof. unfold spectrum. rewrite map_length, seq_length. reflexivity. Qed.

Lemma tone_spectrum N q A phi i : Nat.even N = false -> (1 <= q)%nat -> (q < (N + 1) / 2)%nat -> (i < (N + 1) / 2)%nat ->
  nth i (spectrum (tone N q A phi)) 0 = if Nat.eqb i q then Rabs A * INR N / 2 else 0.
Proof.
  intros E Hq Hq' Hi. destruct (odd_half N E) as (_ & H2).
  assert (PN : 0 < INR N) by (apply lt_0_INR; lia).
  unfold spectrum. rewrite tone_length. rewrite nth_map_seq by auto. unfold magnitude. rewrite tone_length.
  rewrite (sum_n_ext N (fun m => nth m (tone N q A phi) 0 * cos (2 * PI * (INR i / INR N) * INR m)) (fun m => nth m (tone N q A phi) 0 * cos (2 * PI * INR i * INR m / INR N))).
  2:{ intros m _. f_equal. f_equal. field. lra. }
  rewrite (sum_n_ext N (fun m => nth m (tone N q A phi) 0 * sin (2 * PI * (INR i / INR N) * INR m)) (fun m => nth m (tone N q A phi) 0 * sin (2 * PI * INR i * INR m / INR N))).
  2:{ intros m _. f_equal. f_equal. field. lra. }
  rewrite tone_cos, tone_sin by lia. destruct (Nat.eqb_spec i q).
  - replace ((A * INR N / 2 * cos phi) ^ 2 + (- (A * INR N / 2 * sin phi)) ^ 2) with ((A * INR N / 2)² * ((sin phi)² + (cos phi)²)) by (unfold Rsqr; ring).
    rewrite sin2_cos2, Rmult_1_r, sqrt_Rsqr_abs. unfold Rdiv. rewrite !Rabs_mult, (Rabs_right (INR N)), (Rabs_right (/ 2)) by lra. reflexivity.
  - replace (0 ^ 2 + 0 ^ 2) with 0 by ring. apply sqrt_0.
Qed.
