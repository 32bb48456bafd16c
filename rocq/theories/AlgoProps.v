(** Properties C47-C52 and C56: algorithms on lists of numbers. *)
From Coq Require Import Reals ZArith List Bool Sorted Permutation Lra Lia.
From Verif Require Import PyLibModel CommonModel HitPyModel TrackModel AlgoModel AlgoSpec PeakProofs SmoothProofs ScanProofs.
Import ListNotations.
Open Scope list_scope.
Open Scope R_scope.

(** ---- C47 ---- *)
Theorem C47_peaks data :
  increasing (uphill_peaks data) /\
  forall p, In p (uphill_peaks data) <-> local_max data p.
Proof. split; [apply uphill_sorted|intros; apply uphill_in]. Qed.
Print Assumptions C47_peaks.

Example C47_ex : local_max [1; 5; 2; 3; 3; 0] 1 /\ ~ local_max [1; 5; 2; 3; 3; 0] 3.
Proof.
  split.
  - repeat split; simpl; try lia; unfold val; simpl; lra.
  - intros (_ & _ & _ & H). unfold val in H. simpl in H. lra.
Qed.

(** ---- C48 ---- *)
Theorem C48_window_peaks data window_size threshold step :
  data <> [] -> (0 < window_size)%nat -> (0 < step)%nat ->
  let n := length data in
  let size := Nat.min window_size n in
  exists peaks, window_peaks window_size threshold step data = inr peaks /\
    increasing peaks /\
    forall p, In p peaks <->
      exists i, window_start n size step i /\ window_max data i size p /\
                ~ on_inner_edge n i size p /\
                stands_out threshold (part data i (i + size)) (val data p).
Proof.
  intros Nn Hw Hs n size. unfold window_peaks. fold n.
  assert (N0 : (0 < n)%nat) by (unfold n; destruct data; [contradiction|simpl; lia]).
  replace (if (n <? window_size)%nat then n else window_size) with size.
  2:{ unfold size. destruct (Nat.ltb_spec n window_size); lia. }
  destruct (Nat.eqb_spec step 0) as [E|_]; [lia|].
  assert (S0 : (0 < size <= n)%nat) by (unfold size; lia).
  assert (St : forall i, In i (py_range (n - size + 1) step) <-> window_start n size step i).
  { intros i. rewrite py_range_in by auto. unfold window_start. split; intros [A B]; split; auto; lia. }
  assert (Le : forall i, In i (py_range (n - size + 1) step) -> (i + size <= length data)%nat).
  { intros i Hi. apply St in Hi. apply Hi. }
  destruct (window_loop_spec data size threshold (py_range (n - size + 1) step) [] ltac:(lia) Le ltac:(constructor))
    as (out & E & _ & Ho).
  cbn [app] in E, Ho. exists out. split; auto. split.
  - eapply (window_loop_sorted data size threshold); [| | | | |exact E]; auto; try lia.
    + apply range_from_sorted; lia.
    + constructor.
    + contradiction.
  - intros p. rewrite Ho. split.
    + intros [[]|(i & Hi & G)]. exists i. split; [apply St; auto|]. exact G.
    + intros (i & Hi & G). right. exists i. split; [apply St; auto|]. exact G.
Qed.
Print Assumptions C48_window_peaks.

(** Every value that stands above all its neighbours in less than a window is found. *)
Theorem C48_isolated data window_size threshold p :
  (3 <= window_size)%nat -> (3 <= length data)%nat -> threshold < 1 -> (p < length data)%nat ->
  (forall q, (q < length data)%nat -> q <> p ->
     (q < p + window_size)%nat -> (p < q + window_size)%nat -> val data q < val data p) ->
  exists peaks, window_peaks window_size threshold 1 data = inr peaks /\ In p peaks.
Proof.
  intros Hw Hn Ht Hp Hq. 
  destruct (C48_window_peaks data window_size threshold 1) as (peaks & E & _ & H); try lia.
  { destruct data; simpl in Hn; [lia|discriminate]. }
  exists peaks. split; auto. apply H. set (n := length data) in *. set (size := Nat.min window_size n).
  exists (Nat.min (p - 1) (n - size)).
  set (i := Nat.min (p - 1) (n - size)).
  assert (B : (i <= p < i + size)%nat /\ (i + size <= n)%nat) by (unfold i, size in *; lia).
  assert (S : (3 <= size <= window_size)%nat) by (unfold size; lia).
  split; [split; [lia|exists i; lia]|]. split; [|split].
  - split; [lia|]. split.
    + intros q Q. apply Hq; lia.
    + intros q Q. destruct (Nat.eq_dec q p) as [-> | D]; [lra|]. left. apply Hq; lia.
  - intros [[A A']|[A A']]; unfold i in *; lia.
  - left. auto.
Qed.
Print Assumptions C48_isolated.

(** An empty window, an empty list and a step of zero are rejected. *)
Theorem C48_errors data window_size threshold step :
  data = [] \/ window_size = 0%nat \/ step = 0%nat ->
  window_peaks window_size threshold step data = inl AValue.
Proof.
  intros H. unfold window_peaks. destruct (Nat.eqb_spec step 0) as [|Sn]; auto.
  set (size := if (length data <? window_size)%nat then length data else window_size).
  assert (Z : size = 0%nat).
  { unfold size. destruct H as [-> |[-> |H]]; [|reflexivity|lia].
    simpl. destruct window_size; reflexivity. }
  rewrite Z. replace (length data - 0 + 1)%nat with (S (length data)) by lia. reflexivity.
Qed.
Print Assumptions C48_errors.

(** The "sigma" of lines 74-75 is not a standard deviation: the same peak on a pedestal is
    not found. *)
Theorem C48_pedestal_refuted :
  exists data c threshold, window_peaks 3 threshold 1 data = inr [1%nat] /\
    window_peaks 3 threshold 1 (map (Rplus c) data) = inr [].
Proof.
  exists [0; 1; 0], 10, 2.
  assert (W : forall c, window_max (map (Rplus c) [0; 1; 0]) 0 3 1).
  { intros c. split; [lia|]. split; intros q Hq; unfold val; simpl map.
    - assert (q = 0%nat) by lia. subst. simpl. lra.
    - assert (q = 1%nat \/ q = 2%nat) as [-> | ->] by lia; simpl; lra. }
  assert (G : forall (c : R) (b : bool), (if b then stands_out 2 (map (Rplus c) [0; 1; 0]) (c + 1)
                           else ~ stands_out 2 (map (Rplus c) [0; 1; 0]) (c + 1)) ->
     window_peaks 3 2 1 (map (Rplus c) [0; 1; 0]) = inr (if b then [1%nat] else [])).
  { intros c b Hb.
    destruct (C48_window_peaks (map (Rplus c) [0; 1; 0]) 3 2 1) as (l & -> & S & H);
      try lia; [discriminate|]. f_equal.
    change (length (map (Rplus c) [0; 1; 0])) with 3%nat in H. change (Nat.min 3 3) with 3%nat in H.
    change (part (map (Rplus c) [0; 1; 0])) with (part (map (Rplus c) [0; 1; 0])) in H.
    assert (H' : forall p, In p l <-> p = 1%nat /\ stands_out 2 (map (Rplus c) [0; 1; 0]) (c + 1)).
    { intros p. rewrite H. split.
      - intros (i & [I _] & M & _ & O). assert (i = 0%nat) by lia. subst i.
        pose proof (window_max_unique _ _ _ _ _ M (W c)). subst p. split; auto.
      - intros [-> O]. exists 0%nat. split; [split; [lia|exists 0%nat; auto]|]. split; [apply W|].
        split; [|exact O]. intros [[A _]|[A _]]; lia. }
    destruct b.
    - destruct l as [|a [|b l]].
      + exfalso. apply (H' 1%nat). split; auto.
      + f_equal. apply (H' a). simpl. auto.
      + exfalso. assert (a = 1%nat) by (apply (H' a); simpl; auto).
        assert (b = 1%nat) by (apply (H' b); simpl; auto). subst.
        inversion S as [|? ? _ F]; subst. inversion F; subst. lia.
    - destruct l as [|a l]; auto. exfalso. apply Hb. apply (H' a). simpl. auto. }
  split.
  - rewrite <- (G 0 true).
    + f_equal. simpl. f_equal; [lra|]. f_equal; [lra|]. f_equal. lra.
    + right. cbn. 
      replace (1 + 1 + 1) with 3 by ring.
      match goal with |- sqrt ?e / _ * _ < _ => assert (E : sqrt e < 1); [|lra] end.
      eapply Rlt_le_trans; [apply sqrt_lt_1 with (y := 1); lra|rewrite sqrt_1; lra].
  - apply (G 10 false). intros [H|H]; [lra|]. cbn in H.
    replace (1 + 1 + 1) with 3 in H by ring.
    match type of H with sqrt ?e / _ * _ < _ => assert (E : 1 < sqrt e) end; [|lra].
    eapply Rle_lt_trans; [|apply sqrt_lt_1 with (x := 1); lra]. rewrite sqrt_1; lra.
Qed.
Print Assumptions C48_pedestal_refuted.

(** ---- C49 ---- *)
(** Without a width there are no weights. *)
Theorem C49_init sigma range_ adjust :
  gauss_init sigma range_ adjust = inl AZeroDiv <-> sigma = 0.
Proof.
  unfold gauss_init. destruct (Req_EM_T sigma 0) as [E|E]; split; auto; try discriminate. contradiction.
Qed.
Print Assumptions C49_init.

(** The smoothed value: the mean of the values in range with Gaussian weights; with
    adjust the weights in use, without it all weights, add up to one. *)
Theorem C49_value sigma range_ adjust g signal i :
  gauss_init sigma range_ adjust = inr g -> (i < length signal)%nat ->
  let first := (i - range_)%nat in
  let number := (Nat.min (length signal) (i + range_ + 1) - first)%nat in
  length (gauss_smooth g signal) = length signal /\
  val (gauss_smooth g signal) i =
    sum_from first number (fun k => bell sigma (dist k i) * val signal k) /
    (if adjust then sum_from first number (fun k => bell sigma (dist k i))
     else sum_from 0 (2 * range_ + 1) (fun k => bell sigma (dist k range_))).
Proof.
  intros E H. split; [apply gauss_length|]. exact (gauss_val sigma range_ adjust g signal i E H).
Qed.
Print Assumptions C49_value.

(** With adjust, a smoothed value lies between any bounds of the values in range. *)
Theorem C49_between sigma range_ g signal i a b :
  gauss_init sigma range_ true = inr g -> (i < length signal)%nat ->
  (forall k, (k < length signal)%nat -> (i <= k + range_)%nat -> (k <= i + range_)%nat -> a <= val signal k <= b) ->
  a <= val (gauss_smooth g signal) i <= b.
Proof.
  intros E H B. rewrite (gauss_val _ _ _ _ _ _ E H).
  pose proof (norm_pos sigma range_ (length signal) i true H) as P. unfold norm_of in *.
  set (first := lo range_ i) in *. set (number := cnt range_ (length signal) i) in *.
  set (N := sum_from first number (fun k => bell sigma (dist k i))) in *.
  assert (K : forall k, (first <= k < first + number)%nat -> a <= val signal k <= b).
  { intros k Hk. unfold first, number, lo, cnt in Hk. apply B; lia. }
  split.
  - apply (Rmult_le_reg_r N); auto. unfold Rdiv. rewrite Rmult_assoc, Rinv_l, Rmult_1_r by lra.
    unfold N. rewrite <- sum_from_scal. apply sum_from_le. intros k Hk.
    pose proof (bell_pos sigma (dist k i)). specialize (K k Hk). nra.
  - apply (Rmult_le_reg_r N); auto. unfold Rdiv. rewrite Rmult_assoc, Rinv_l, Rmult_1_r by lra.
    unfold N. rewrite <- sum_from_scal. apply sum_from_le. intros k Hk.
    pose proof (bell_pos sigma (dist k i)). specialize (K k Hk). nra.
Qed.
Print Assumptions C49_between.

Theorem C49_constant sigma range_ g n c :
  gauss_init sigma range_ true = inr g ->
  gauss_smooth g (repeat c n) = repeat c n.
Proof.
  intros E. apply (nth_ext _ _ 0 0); [apply gauss_length|]. intros i Hi. rewrite gauss_length in Hi.
  fold (val (gauss_smooth g (repeat c n)) i). fold (val (repeat c n) i).
  assert (V : forall k, (k < length (repeat c n))%nat -> val (repeat c n) k = c).
  { intros k Hk. unfold val. apply (repeat_spec n c). apply nth_In. auto. }
  rewrite (V i Hi). 
  assert (c <= val (gauss_smooth g (repeat c n)) i <= c); [|lra].
  eapply C49_between; eauto. intros k Hk _ _. rewrite V by auto. lra.
Qed.
Print Assumptions C49_constant.

(** Smoothing is linear. *)
Theorem C49_linear sigma range_ adjust g s t a b i :
  gauss_init sigma range_ adjust = inr g -> length s = length t -> (i < length s)%nat ->
  val (gauss_smooth g (map (fun k => a * val s k + b * val t k) (seq 0 (length s)))) i =
  a * val (gauss_smooth g s) i + b * val (gauss_smooth g t) i.
Proof.
  intros E L H. set (u := map _ _). assert (Lu : length u = length s) by (unfold u; rewrite map_length, seq_length; auto).
  rewrite !(gauss_val _ _ _ _ _ _ E) by congruence. rewrite <- L, Lu.
  pose proof (norm_pos sigma range_ (length s) i adjust H) as P.
  assert (U : forall k, (k < length s)%nat -> val u k = a * val s k + b * val t k).
  { intros k Hk. unfold u, val. rewrite nth_map_seq by auto. reflexivity. }
  rewrite (sum_from_ext _ _ _ (fun k => a * (bell sigma (dist k i) * val s k) + b * (bell sigma (dist k i) * val t k))).
  - rewrite sum_from_plus, !sum_from_scal. field. lra.
  - intros k Hk. rewrite U by (unfold lo, cnt in Hk; lia). ring.
Qed.
Print Assumptions C49_linear.

(** Smoothing the reversed signal reverses the smoothed signal. *)
Theorem C49_reverse sigma range_ adjust g s i :
  gauss_init sigma range_ adjust = inr g -> (i < length s)%nat ->
  val (gauss_smooth g (rev s)) i = val (gauss_smooth g s) (length s - 1 - i).
Proof.
  intros E H. set (n := length s) in *. set (i' := (n - 1 - i)%nat).
  rewrite !(gauss_val _ _ _ _ _ _ E) by (rewrite ?rev_length; unfold i'; lia).
  rewrite rev_length. fold n.
  assert (Flip : forall f h, (forall k, (k < n)%nat -> h k = f (n - 1 - k)%nat) ->
     sum_from (lo range_ i) (cnt range_ n i) h = sum_from (lo range_ i') (cnt range_ n i') f).
  { intros f h Hfh. set (c := cnt range_ n i).
    assert (Ec : cnt range_ n i' = c) by (unfold c, cnt, i'; lia). rewrite Ec.
    rewrite (sum_from_rev c (lo range_ i')).
    rewrite <- (Nat.add_0_l (lo range_ i)), <- (Nat.add_0_l (lo range_ i')), !sum_from_shift.
    apply sum_from_ext. intros k Hk. rewrite Hfh by (unfold c, cnt, lo in *; lia). f_equal.
    unfold c, cnt, lo, i' in *. lia. }
  assert (Bl : forall k, (k < n)%nat -> bell sigma (dist k i) = bell sigma (dist (n - 1 - k) i')).
  { intros k Hk. rewrite <- bell_sym. f_equal. unfold dist, i'. lia. }
  f_equal.
  - apply Flip. intros k Hk. rewrite Bl by auto. f_equal. unfold val. rewrite rev_nth by auto.
    fold n. f_equal. lia.
  - unfold norm_of. destruct adjust; [apply Flip; auto|auto].
Qed.
Print Assumptions C49_reverse.

Example C49_ex : exists g, gauss_init 2 3 true = inr g /\
  length (gauss_smooth g [1; 7; 2; 5]) = 4%nat /\ 1 <= val (gauss_smooth g [1; 7; 2; 5]) 2 <= 7.
Proof.
  unfold gauss_init. destruct (Req_EM_T 2 0) as [E|E]; [lra|].
  eexists. split; [reflexivity|]. split; [apply gauss_length|].
  eapply (C49_between 2 3).
  - unfold gauss_init. destruct (Req_EM_T 2 0); [lra|]. reflexivity.
  - simpl. lia.
  - intros [|[|[|[|k]]]] H _ _; unfold val; simpl in *; try lra. lia.
Qed.

(** Without adjust a constant is not preserved at the ends. *)
Theorem C49_constant_refuted : exists sigma range_ g n c,
  gauss_init sigma range_ false = inr g /\ gauss_smooth g (repeat c n) <> repeat c n.
Proof.
  exists 1, 1%nat, (mkGauss 1 (gauss_weights 1 1) (Some (sum_list (gauss_weights 1 1)))), 1%nat, 1.
  assert (E : gauss_init 1 1 false = inr (mkGauss 1 (gauss_weights 1 1) (Some (sum_list (gauss_weights 1 1))))).
  { unfold gauss_init. destruct (Req_EM_T 1 0); [lra|reflexivity]. }
  split; auto. intros H. apply (f_equal (fun l => val l 0)) in H.
  rewrite (gauss_val _ _ _ _ _ _ E) in H by (simpl; lia).
  unfold norm_of, lo, cnt in H. cbn -[bell] in H.
  pose proof (bell_pos 1 0) as P0. pose proof (bell_pos 1 (-1)) as P1.
  pose proof (bell_pos 1 0) as P2. pose proof (bell_pos 1 1) as P3.
  unfold val in H. simpl nth in H.
  match type of H with _ / ?e = _ => set (N := e) in H; assert (E0 : N = e) by reflexivity end.
  assert (H' : bell 1 0 = N).
  { transitivity ((bell 1 0 * 1 + 0) / N * N); [field; lra|rewrite H; lra]. }
  lra.
Qed.
Print Assumptions C49_constant_refuted.

(** ---- C50 ---- *)
(** As written, the smoothing of a well formed table fails in Python 3. *)
Theorem C50_python3_refuted cut_range step (s : Store) table target :
  (forall l, In l table -> length (at_ s l) = length (at_ s (nth target table 0%nat))) ->
  (target < length table)%nat -> (0 < step)%nat ->
  smooth_table python3 cut_range step s table target = inl AType.
Proof.
  intros L T S. unfold smooth_table.
  rewrite (nth_error_nth' table 0%nat T).
  replace (forallb _ table) with true.
  2:{ symmetry. apply forallb_forall. intros l Hl. apply Nat.eqb_eq. apply L. auto. }
  cbn [negb]. destruct (Nat.eqb_spec step 0); [lia|]. reflexivity.
Qed.
Print Assumptions C50_python3_refuted.

(** With integer division: all columns lose the same rows. *)
Theorem C50_aligned cut_range step (s : Store) table target :
  NoDup table -> (forall l, In l table -> (l < length s)%nat) ->
  (target < length table)%nat -> (0 < step)%nat ->
  let signal := at_ s (nth target table 0%nat) in
  (forall l, In l table -> length (at_ s l) = length signal) ->
  exists flags, length flags = length signal /\
    smooth_table repaired cut_range step s table target = inr (map (fun l => kept flags (at_ s l)) table) /\
    forall j, (j < length signal)%nat ->
      let (a, b) := window_of step (length signal) j in
      (nth j flags false = true <-> cut_range < Rabs (val signal j - average (part signal a b))).
Proof.
  intros N I T S signal L. exists (cut_flags cut_range step signal).
  destruct (cut_flags_spec cut_range step signal S) as [Lf F]. split; auto. split.
  - unfold smooth_table. rewrite (nth_error_nth' table 0%nat T). fold signal.
    replace (forallb _ table) with true.
    2:{ symmetry. apply forallb_forall. intros l Hl. apply Nat.eqb_eq. apply L. auto. }
    cbn [negb]. destruct (Nat.eqb_spec step 0); [lia|]. cbn [floor_div repaired negb].
    destruct (del_columns_spec (cut_flags cut_range step signal) table s N) as (s' & -> & A & _).
    { intros c Hc. split; auto. rewrite Lf. auto. }
    f_equal. apply map_ext_in. auto.
  - intros j Hj. specialize (F j Hj). destruct (window_of step (length signal) j) as [a b].
    rewrite F. unfold far_from. destruct (Rlt_dec _ _); split; auto; discriminate.
Qed.
Print Assumptions C50_aligned.

(** The window of a row: at least one row of the table, at most [step]; with at least [step]
    rows it has [step] rows and holds the row. *)
Theorem C50_window step n j : (0 < step)%nat -> (j < n)%nat ->
  let (a, b) := window_of step n j in
  (a < b <= n)%nat /\ (b - a <= step)%nat /\ ((step <= n)%nat -> (a <= j < b)%nat /\ (b - a = step)%nat).
Proof.
  intros S H. unfold window_of.
  pose proof (Nat.div_mod n step ltac:(lia)) as Dn. pose proof (Nat.mod_upper_bound n step ltac:(lia)) as Mn.
  pose proof (Nat.div_mod j step ltac:(lia)) as Dj. pose proof (Nat.mod_upper_bound j step ltac:(lia)) as Mj.
  destruct (Nat.ltb_spec j (n / step * step)) as [B|B].
  - assert (j / step < n / step)%nat by (apply Nat.div_lt_upper_bound; nia).
    assert ((j / step + 1) * step <= n / step * step)%nat by nia.
    split; [nia|]. split; [lia|]. intros _. split; nia.
  - destruct (Nat.leb_spec step n).
    + split; [lia|]. split; [lia|]. intros _. split; nia.
    + split; [lia|]. split; lia.
Qed.
Print Assumptions C50_window.

(** With fewer than [step] rows the mean may leave out rows, even the row itself. *)
Theorem C50_short_refuted : exists step n j, (0 < step)%nat /\ (j < n)%nat /\
  let (a, b) := window_of step n j in ~ (a <= j < b)%nat.
Proof. exists 5%nat, 4%nat, 0%nat. split; [lia|]. split; [lia|]. simpl. lia. Qed.
Print Assumptions C50_short_refuted.

(** Ill formed tables and a step of zero are rejected and nothing is cut. *)
Theorem C50_errors dl cut_range step (s : Store) table target :
  ((length table <= target)%nat -> smooth_table dl cut_range step s table target = inl AIndex) /\
  ((target < length table)%nat ->
   (exists l, In l table /\ length (at_ s l) <> length (at_ s (nth target table 0%nat))) ->
   smooth_table dl cut_range step s table target = inl AIndex) /\
  ((target < length table)%nat ->
   (forall l, In l table -> length (at_ s l) = length (at_ s (nth target table 0%nat))) -> step = 0%nat ->
   smooth_table dl cut_range step s table target = inl AZeroDiv).
Proof.
  unfold smooth_table. split; [|split].
  - intros H. apply nth_error_None in H. rewrite H. auto.
  - intros T (l & Hl & D). rewrite (nth_error_nth' table 0%nat T).
    replace (forallb _ table) with false; auto. symmetry.
    destruct (forallb _ table) eqn:E; auto. rewrite forallb_forall in E. specialize (E l Hl).
    apply Nat.eqb_eq in E. contradiction.
  - intros T L ->. rewrite (nth_error_nth' table 0%nat T).
    replace (forallb _ table) with true; auto.
    symmetry. apply forallb_forall. intros l Hl. apply Nat.eqb_eq. apply L. auto.
Qed.
Print Assumptions C50_errors.

(** A table that holds one list object twice: the rows are deleted twice. *)
Theorem C50_shared_refuted : exists cut_range step s table target flags,
  length flags = length (at_ s 0) /\ table = [0%nat; 0%nat] /\ (0 < step)%nat /\
  smooth_table repaired cut_range step s table target = inl AIndex /\
  smooth_table repaired cut_range step s [0%nat] target = inr [kept flags (at_ s 0)].
Proof.
  exists (1/4), 2%nat, [[0; 1]], [0%nat; 0%nat], 0%nat, [true; true].
  split; auto. split; auto. split; [lia|].
  assert (F : cut_flags (1 / 4) 2 [0; 1] = [true; true]).
  { unfold cut_flags. cbn -[far]. unfold far, np_mean.
    assert (A : forall x, 1/4 < Rabs (x - (0 + 0 + 1) / (1 + 1)) -> rltb (1 / 4) (Rabs (x - sum_list [0; 1] / INR (length [0; 1]))) = true).
    { intros x Hx. apply rltb_true. exact Hx. }
    rewrite !A; auto.
    - rewrite Rabs_right; lra.
    - rewrite Rabs_left; lra. }
  split.
  - unfold smooth_table, at_. cbn -[cut_flags]. rewrite F. reflexivity.
  - unfold smooth_table, at_. cbn -[cut_flags]. rewrite F. reflexivity.
Qed.
Print Assumptions C50_shared_refuted.

(** One signal on its own. *)
Theorem C50_signal cut_range step signal : (0 < step)%nat ->
  exists flags, length flags = length signal /\
    cut_smooth repaired cut_range step signal = inr (kept flags signal) /\
    forall j, (j < length signal)%nat ->
      let (a, b) := window_of step (length signal) j in
      (nth j flags false = true <-> cut_range < Rabs (val signal j - average (part signal a b))).
Proof.
  intros S.
  destruct (C50_aligned cut_range step [signal] [0%nat] 0) as (flags & L & E & F); auto.
  - constructor; [simpl; tauto|constructor].
  - intros l [<- | []]. simpl. lia.
  - intros l [<- | []]. reflexivity.
  - exists flags. unfold cut_smooth. rewrite E. split; auto.
Qed.
Print Assumptions C50_signal.

(** ---- C51 ---- *)
(** An axis, the number of its values. *)
Definition has (strict : bool) (am : Axis * nat) : Prop :=
  axis_has (a_start (fst am)) (a_end (fst am)) (a_size (fst am)) (snd am) strict.
Definition values (am : Axis * nat) : list R := steps (a_start (fst am)) (a_size (fst am)) (snd am).

(** If no axis but the first can meet its end, the scan visits the whole grid, once, and
    then ends. *)
Theorem C51_grid (first : Axis * nat) (rest : list (Axis * nat)) n :
  has false first -> Forall (has true) rest ->
  (length (product (map values (first :: rest))) < n)%nat ->
  scan n (map fst (first :: rest)) = (product (map values (first :: rest)), true).
Proof.
  intros (A & B & C & D) R L.
  destruct (ends_product first) with (rest := rest) as (l & E & P).
  - split; auto.
  - exact D.
  - revert R. apply Forall_impl. intros am (A' & B' & C' & D'). repeat split; auto.
  - change (map ax_points (first :: rest)) with (map values (first :: rest)) in P.
    rewrite <- P in *. apply scan_ends; auto. rewrite map_length in L. auto.
Qed.
Print Assumptions C51_grid.

(** Every axis that goes up has a number of values; it meets its end or not. *)
Theorem C51_axes a : 0 < a_size a -> a_start a < a_end a ->
  exists m, has false (a, m) /\
    ((forall k, a_start a + INR k * a_size a <> a_end a) -> has true (a, m)).
Proof.
  intros S H. unfold has, axis_has. cbn [fst snd].
  assert (G : forall m, a_end a <= a_start a + INR m * a_size a ->
     exists m', (0 < m')%nat /\ a_start a + INR (m' - 1) * a_size a < a_end a /\ a_end a <= a_start a + INR m' * a_size a).
  { induction m as [|m IH]; intros Hm; [simpl in Hm; lra|].
    destruct (Rle_lt_dec (a_end a) (a_start a + INR m * a_size a)) as [Le|Lt]; auto.
    exists (Datatypes.S m). split; [lia|]. split; auto. replace (Datatypes.S m - 1)%nat with m by lia. auto. }
  assert (exists m, (a_end a - a_start a) / a_size a < INR m) as [m Hm].
  { destruct (archimed ((a_end a - a_start a) / a_size a)) as [Up _].
    set (z := up ((a_end a - a_start a) / a_size a)) in *. exists (Z.to_nat z).
    rewrite INR_IZR_INZ. eapply Rlt_le_trans; [exact Up|]. apply IZR_le. lia. }
  destruct (G m) as (m' & P & Q & R).
  { apply Rlt_le in Hm. apply (Rmult_le_compat_r (a_size a)) in Hm; [|lra].
    unfold Rdiv in Hm. rewrite Rmult_assoc, Rinv_l in Hm by lra. lra. }
  exists m'. split; [auto|]. intros K. repeat split; auto. specialize (K m'). lra.
Qed.
Print Assumptions C51_axes.

(** If the last axis can meet its end, the scan visits only the points with the other
    coordinates at their starts. *)
Theorem C51_grid_refuted (others : list (Axis * nat)) (last : Axis * nat) n :
  others <> [] -> Forall (has false) others -> has false last ->
  a_start (fst last) + INR (snd last) * a_size (fst last) = a_end (fst last) ->
  (snd last < n)%nat ->
  scan n (map fst (others ++ [last])) =
  (map (fun x => map (fun am => a_start (fst am)) others ++ [x]) (values last), true).
Proof.
  intros N F (A & B & C & D) M L.
  assert (O : out_of_steps (rev (map fst others)) (map a_start (rev (map fst others))) = false).
  { assert (G : forall l, (forall a, In a l -> a_start a < a_end a) -> out_of_steps l (map a_start l) = false).
    { induction l as [|a l IH]; intros H; auto. cbn [map]. rewrite out_cons. apply orb_false_iff.
      split; [|apply IH; intros; apply H; simpl; auto]. apply negb_false_iff, rltb_true. apply H. simpl. auto. }
    apply G. intros a Ha. rewrite <- in_rev in Ha. apply in_map_iff in Ha.
    destruct Ha as (am & <- & Ham). rewrite Forall_forall in F. destruct (F am Ham) as (P & Q & R & _).
    pose proof (pos_INR (snd am - 1)). nra. }
  rewrite (scan_ends _ (map (fun j => pt (fst last) j :: map a_start (rev (map fst others))) (seq 0 (snd last)))).
  - f_equal. unfold values, steps. rewrite !map_map. apply map_ext. intros k. cbn [rev].
    rewrite <- map_rev, rev_involutive, map_map. reflexivity.
  - rewrite map_app, rev_app_distr. cbn [map rev app]. rewrite <- pt_0.
    apply (row_stops (fst last) _ (snd last)); auto.
    + intros E. apply N. apply (f_equal (@length _)) in E. rewrite rev_length, map_length in E.
      destruct others; auto. discriminate.
    + split; auto.
  - rewrite map_length, seq_length. auto.
Qed.
Print Assumptions C51_grid_refuted.

Example C51_ex :
  let x := (mkAxis 0 2 1, 2%nat) in let y := (mkAxis 0 (3/2) 1, 2%nat) in
  scan 5 [fst x; fst y] = ([[0; 0]; [0; 1]; [1; 0]; [1; 1]], true) /\
  scan 5 [fst y; fst x] = ([[0; 0]; [0; 1]], true).
Proof.
  assert (X : has false (mkAxis 0 2 1, 2%nat)) by (repeat split; simpl; try lia; lra).
  assert (Y : has true (mkAxis 0 (3/2) 1, 2%nat)) by (repeat split; simpl; try lia; lra).
  assert (Y' : has false (mkAxis 0 (3/2) 1, 2%nat)) by (repeat split; simpl; try lia; lra).
  cbv zeta. cbn [fst]. split.
  - change [mkAxis 0 2 1; mkAxis 0 (3/2) 1] with (map fst [(mkAxis 0 2 1, 2%nat); (mkAxis 0 (3/2) 1, 2%nat)]).
    rewrite C51_grid; [|auto|(constructor; [exact Y|constructor])|simpl; lia]. cbn.
    replace (0 + 0 * 1) with 0 by lra. replace (0 + 1 * 1) with 1 by lra. reflexivity.
  - change [mkAxis 0 (3/2) 1; mkAxis 0 2 1] with (map fst ([(mkAxis 0 (3/2) 1, 2%nat)] ++ [(mkAxis 0 2 1, 2%nat)])).
    rewrite C51_grid_refuted; [|discriminate|(constructor; [exact Y'|constructor])|auto|simpl; lra|simpl; lia]. cbn.
    replace (0 + 0 * 1) with 0 by lra. replace (0 + 1 * 1) with 1 by lra. reflexivity.
Qed.

(** ---- C52 ---- *)
Theorem C52_sigma noise : noise <> [] ->
  exists s, sigma_noise noise = inr s /\ 0 <= s /\
    s * s = average (map (fun x => (x - average noise) * (x - average noise)) noise).
Proof.
  intros N. eexists. split; [apply sigma_noise_spec; auto|]. split; [apply sqrt_pos|].
  apply sqrt_sqrt. unfold average at 1. apply Rmult_le_pos; [apply total_sq_pos|].
  apply Rlt_le, Rinv_0_lt_compat. rewrite map_length. apply lt_0_INR. destruct noise; [contradiction|simpl; lia].
Qed.
Print Assumptions C52_sigma.

Theorem C52_mean noise : noise <> [] -> mean_noise noise = inr (average noise).
Proof. destruct noise; [contradiction|]. intros _. unfold mean_noise. rewrite sum_list_total. auto. Qed.
Print Assumptions C52_mean.

Theorem C52_permutation a b : Permutation a b ->
  mean_noise a = mean_noise b /\ sigma_noise a = sigma_noise b.
Proof.
  intros P. destruct a as [|x a].
  - apply Permutation_nil in P. subst. auto.
  - assert (B : b <> []) by (intros ->; apply Permutation_sym, Permutation_nil in P; discriminate).
    assert (A : x :: a <> []) by discriminate.
    assert (Av : average (x :: a) = average b).
    { unfold average. rewrite (total_perm _ _ P), (Permutation_length P). auto. }
    rewrite !C52_mean, !sigma_noise_spec by auto. rewrite Av. split; auto. f_equal. f_equal.
    unfold average at 1 4. rewrite !map_length, (Permutation_length P).
    rewrite (total_perm _ _ (Permutation_map _ P)). auto.
Qed.
Print Assumptions C52_permutation.

Theorem C52_empty : mean_noise [] = inl AValue /\ sigma_noise [] = inl AValue.
Proof. auto. Qed.

(** ---- C56 ---- *)
(** One number for every two neighbouring points, each in [0, 1). *)
Theorem C56_first_call ci centre points : points <> [] ->
  exists l, get_dphi_list ci centre points [] = inr l /\
    length l = (length points - 1)%nat /\ (forall x, In x l -> 0 <= x < 1).
Proof.
  unfold get_dphi_list. destruct points as [|p r]; [contradiction|]. intros _. cbn [map].
  set (q := map (to_circle ci centre) r). set (p0 := to_circle ci centre p).
  eexists. split; [reflexivity|]. split.
  - rewrite dphi_length. unfold q. rewrite map_length. simpl. lia.
  - intros x Hx. apply (In_nth _ _ 0) in Hx. destruct Hx as (i & Hi & <-). rewrite dphi_length in Hi.
    rewrite dphi_nth by auto. apply advance_range.
Qed.
Print Assumptions C56_first_call.

Theorem C56_empty ci centre dphi : get_dphi_list ci centre [] dphi = inl AIndex.
Proof. reflexivity. Qed.

(** A second call keeps what the first call found and adds to it. *)
Theorem C56_again_refuted ci centre points dphi l :
  get_dphi_list ci centre points [] = inr l ->
  get_dphi_list ci centre points dphi = inr (dphi ++ l).
Proof.
  unfold get_dphi_list. destruct (map _ points) as [|p r]; [discriminate|]. intros E. injection E as <-.
  f_equal. apply dphi_loop_app.
Qed.
Print Assumptions C56_again_refuted.

(** Points that follow a linear map of determinant one about the centre, which preserves the
    ellipse: every phase advance is the same, and its cosine is half the trace. *)
Theorem C56_linear_map (m ell low inv_low : M2) (centre p : R * R) points :
  mul2 low (transpose2 low) = ell -> mul2 inv_low low = one2 -> mul2 low inv_low = one2 ->
  mul2 (mul2 m ell) (transpose2 m) = ell -> det2 m = 1 ->
  p <> centre -> orbit m centre p points ->
  let '((a, b), (c, d)) := inv_low in
  exists theta, 0 <= theta < 2 * PI /\ 2 * cos theta = trace2 m /\
    get_dphi_list (a, b, c, d) centre (p :: points) [] = inr (repeat (theta / (2 * PI)) (length points)).
Proof.
  destruct inv_low as [[a b] [c d]]. intros HL HI HI' HM HD Np Ho.
  set (K := ((a, b), (c, d)) : M2) in *.
  set (q := mul2 (mul2 K m) low).
  assert (As : forall x y z : M2, mul2 (mul2 x y) z = mul2 x (mul2 y z)).
  { intros [[? ?] [? ?]] [[? ?] [? ?]] [[? ?] [? ?]]. unfold mul2, apply2. cbn [fst snd]. f_equal; f_equal; ring. }
  assert (Tm : forall x y : M2, transpose2 (mul2 x y) = mul2 (transpose2 y) (transpose2 x)).
  { intros [[? ?] [? ?]] [[? ?] [? ?]]. unfold mul2, apply2, transpose2. cbn [fst snd]. f_equal; f_equal; ring. }
  assert (O1 : forall x : M2, mul2 x one2 = x /\ mul2 one2 x = x).
  { intros [[? ?] [? ?]]. unfold mul2, apply2, one2. cbn [fst snd]. split; f_equal; f_equal; ring. }
  assert (Dm : forall x y : M2, det2 (mul2 x y) = det2 x * det2 y).
  { intros [[? ?] [? ?]] [[? ?] [? ?]]. unfold mul2, apply2, det2. cbn [fst snd]. ring. }
  assert (Ap : forall (x y : M2) v, apply2 (mul2 x y) v = apply2 x (apply2 y v)).
  { intros [[? ?] [? ?]] [[? ?] [? ?]] [? ?]. unfold mul2, apply2. cbn [fst snd]. f_equal; ring. }
  assert (Q1 : mul2 q (transpose2 q) = one2).
  { unfold q. rewrite !Tm, !As. rewrite <- (As low), HL.
    rewrite <- (As m), <- (As (mul2 m ell)). rewrite HM. rewrite <- HL, !As.
    rewrite <- Tm, HI. 
    replace (transpose2 one2) with one2 by reflexivity. rewrite (proj1 (O1 low)), HI. auto. }
  assert (Q2 : det2 q = 1).
  { unfold q. rewrite !Dm, HD. assert (X : det2 K * det2 low = 1) by (rewrite <- Dm, HI; unfold det2, one2; simpl; ring).
    rewrite Rmult_1_r. auto. }
  destruct (orthogonal_rotation q Q1 Q2) as (co & si & Eq & U).
  destruct (rotation_angle co si U) as (theta & T & <- & <-).
  exists theta. split; auto. split.
  - assert (Tr : trace2 q = trace2 m).
    { assert (Tc : forall x y : M2, trace2 (mul2 x y) = trace2 (mul2 y x)).
      { intros [[? ?] [? ?]] [[? ?] [? ?]]. unfold mul2, apply2, trace2. cbn [fst snd]. ring. }
      unfold q. rewrite As, Tc, As, HI', (proj1 (O1 m)). auto. }
    rewrite <- Tr, Eq. unfold trace2. simpl. ring.
  - unfold get_dphi_list. cbn [map].
    assert (Tc : forall x, to_circle (a, b, c, d) centre x = apply2 K (minus2 x centre)) by reflexivity.
    f_equal.
    assert (Nz : forall v, v <> (0, 0) -> apply2 K v <> (0, 0)).
    { intros v Nv Z. apply Nv. assert (V : apply2 (mul2 low K) v = v).
      { rewrite HI'. destruct v. unfold apply2, one2. simpl. f_equal; ring. }
      rewrite <- V, Ap, Z. unfold apply2. cbn [fst snd]. f_equal; ring. }
    assert (Z0 : minus2 p centre <> (0, 0)).
    { intros Z. apply Np. destruct p, centre. unfold minus2 in Z. injection Z as Z1 Z2. cbn [fst snd] in *. f_equal; lra. }
    clear Np. revert p Ho Z0. induction points as [|r points IH]; intros p Ho Z0; [reflexivity|].
    destruct Ho as [Hr Ho]. cbn [map dphi_loop length repeat]. rewrite dphi_loop_app. cbn [app].
    assert (Step : apply2 K (minus2 r centre) = apply2 q (apply2 K (minus2 p centre))).
    { rewrite Hr. unfold q. rewrite <- !Ap. rewrite !As, HI', (proj1 (O1 m)). auto. }
    assert (Adv : advance_of (to_circle (a, b, c, d) centre p) (to_circle (a, b, c, d) centre r) = theta / (2 * PI)).
    { rewrite !Tc. apply advance_rotation; auto. rewrite Step, Eq. unfold apply2. cbn [fst snd]. reflexivity. }
    unfold advance_of in Adv. cbv zeta in Adv. rewrite Adv. f_equal.
    apply IH; auto.
    intros Z. assert (Zr : apply2 K (minus2 r centre) = (0, 0)) by (rewrite Z; unfold apply2; simpl; f_equal; ring).
    rewrite Step, Eq in Zr. apply (Nz _ Z0). destruct (apply2 K (minus2 p centre)) as [u v].
    unfold apply2 in Zr. cbn [fst snd] in Zr. injection Zr as Z1 Z2.
    pose proof (sin2_cos2 theta) as Sc. unfold Rsqr in Sc. f_equal.
    + transitivity ((sin theta * sin theta + cos theta * cos theta) * u); [rewrite Sc; ring|].
      transitivity (cos theta * (cos theta * u + sin theta * v) - sin theta * (- sin theta * u + cos theta * v)); [ring|].
      rewrite Z1, Z2. ring.
    + transitivity ((sin theta * sin theta + cos theta * cos theta) * v); [rewrite Sc; ring|].
      transitivity (sin theta * (cos theta * u + sin theta * v) + cos theta * (- sin theta * u + cos theta * v)); [ring|].
      rewrite Z1, Z2. ring.
Qed.
Print Assumptions C56_linear_map.

Example C56_ex : exists m ell low inv_low : M2, m <> one2 /\
  mul2 low (transpose2 low) = ell /\ mul2 inv_low low = one2 /\ mul2 low inv_low = one2 /\
  mul2 (mul2 m ell) (transpose2 m) = ell /\ det2 m = 1 /\
  orbit m (5, 5) (7, 5) [(5, 4); (3, 5)].
Proof.
  exists ((0, 2), (- / 2, 0)), ((4, 0), (0, 1)), ((2, 0), (0, 1)), ((/ 2, 0), (0, 1)).
  unfold mul2, apply2, transpose2, one2, det2, orbit, minus2. cbn [fst snd].
  split; [intros E; injection E; intros; lra|].
  repeat match goal with |- _ /\ _ => split | |- (_, _) = (_, _) => f_equal end; auto; try lra. all: unfold apply2; cbn [fst snd]; f_equal; lra.
Qed.
