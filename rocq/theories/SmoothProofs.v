From Coq Require Import Reals ZArith List Bool Sorted Lra Lia.
From Verif Require Import PyLibModel CommonModel TrackModel AlgoModel AlgoSpec PeakProofs.
Import ListNotations.
Open Scope list_scope.
Open Scope R_scope.

(** ---- sums ---- *)
Lemma total_map_seq f n : forall a, total (map f (seq a n)) = sum_from a n f.
Proof. induction n as [|n IH]; intros a; simpl; auto. rewrite IH. auto. Qed.
Lemma sum_from_ext n : forall a f g, (forall k, (a <= k < a + n)%nat -> f k = g k) ->
  sum_from a n f = sum_from a n g.
Proof.
  induction n as [|n IH]; intros a f g H; simpl; auto. rewrite H by lia. f_equal. apply IH.
  intros; apply H; lia.
Qed.
Lemma sum_from_shift n : forall a b f, sum_from (a + b) n f = sum_from a n (fun k => f (k + b)%nat).
Proof. induction n as [|n IH]; intros a b f; simpl; auto. f_equal. apply (IH (S a)). Qed.
Lemma sum_from_scal n c : forall a f, sum_from a n (fun k => c * f k) = c * sum_from a n f.
Proof. induction n as [|n IH]; intros a f; simpl; [lra|]. rewrite IH. lra. Qed.
Lemma sum_from_plus n : forall a f g, sum_from a n (fun k => f k + g k) = sum_from a n f + sum_from a n g.
Proof. induction n as [|n IH]; intros a f g; simpl; [lra|]. rewrite IH. lra. Qed.
Lemma sum_from_le n : forall a f g, (forall k, (a <= k < a + n)%nat -> f k <= g k) ->
  sum_from a n f <= sum_from a n g.
Proof.
  induction n as [|n IH]; intros a f g H; simpl; [lra|].
  pose proof (H a ltac:(lia)). specialize (IH (S a) f g ltac:(intros; apply H; lia)). lra.
Qed.
Lemma sum_from_pos n : forall a f, (0 < n)%nat -> (forall k, (a <= k < a + n)%nat -> 0 < f k) ->
  0 < sum_from a n f.
Proof.
  induction n as [|n IH]; intros a f L H; [lia|]. simpl. pose proof (H a ltac:(lia)).
  destruct n; [simpl; lra|]. specialize (IH (S a) f ltac:(lia) ltac:(intros; apply H; lia)). lra.
Qed.
Lemma sum_from_split n : forall m a f, sum_from a (n + m) f = sum_from a n f + sum_from (a + n) m f.
Proof.
  induction n as [|n IH]; intros m a f; simpl; [rewrite Nat.add_0_r; lra|].
  rewrite IH. replace (S a + n)%nat with (a + S n)%nat by lia. lra.
Qed.
Lemma sum_from_rev n : forall a f, sum_from a n f = sum_from a n (fun k => f (2 * a + n - 1 - k)%nat).
Proof.
  assert (E : forall n a f, sum_from a (S n) f = sum_from a n f + f (a + n)%nat).
  { intros. replace (S n0) with (n0 + 1)%nat by lia. rewrite sum_from_split. simpl. lra. }
  induction n as [|n IH]; intros a f; auto. rewrite E. simpl sum_from at 2.
  rewrite (IH a f). rewrite Rplus_comm. f_equal; [f_equal; lia|].
  replace (S a) with (a + 1)%nat by lia. rewrite sum_from_shift. apply sum_from_ext.
  intros k Hk. f_equal. lia.
Qed.

(** ---- Gaussian ---- *)
Lemma bell_pos s d : 0 < bell s d.
Proof. apply exp_pos. Qed.
Lemma bell_sym s d : bell s (- d) = bell s d.
Proof. unfold bell. rewrite opp_IZR. f_equal. f_equal. ring. Qed.

Definition lo (r i : nat) : nat := (i - r)%nat.
Definition cnt (r n i : nat) : nat := (Nat.min n (i + r + 1) - (i - r))%nat.
Definition norm_of (sigma : R) (r n i : nat) (adjust : bool) : R :=
  if adjust then sum_from (lo r i) (cnt r n i) (fun k => bell sigma (dist k i))
  else sum_from 0 (2 * r + 1) (fun k => bell sigma (dist k r)).

Lemma norm_pos sigma r n i adjust : (i < n)%nat -> 0 < norm_of sigma r n i adjust.
Proof.
  intros H. unfold norm_of. destruct adjust; apply sum_from_pos; unfold cnt; try lia;
    intros; apply bell_pos.
Qed.

Lemma smooth_one_spec sigma r adjust g signal i : gauss_init sigma r adjust = inr g ->
  (i < length signal)%nat ->
  smooth_one g signal i =
  sum_from (lo r i) (cnt r (length signal) i) (fun k => bell sigma (dist k i) * val signal k)
  / norm_of sigma r (length signal) i adjust.
Proof.
  unfold gauss_init. destruct (Req_EM_T sigma 0) as [|Hs]; [discriminate|]. intros E Hi. inversion E; subst g; clear E.
  unfold smooth_one. cbn [g_range g_weights g_norm].
  set (n := length signal) in *. set (s1 := Nat.min n (i + r + 1)).
  fold (lo r i). change (s1 - lo r i)%nat with (cnt r n i). set (c := cnt r n i).
  set (w0 := (lo r i + r - i)%nat).
  assert (W : forall j, (j < c)%nat ->
    nth j (map (fun k => nth k (gauss_weights sigma r) 0) (seq w0 c)) 0 = bell sigma (dist (j + lo r i) i)).
  { intros j Hj. rewrite nth_map_seq by auto. unfold gauss_weights.
    assert (Hw : (w0 + j < 2 * r + 1)%nat) by (unfold w0, c, cnt, lo in *; lia).
    rewrite nth_map_seq by auto.
    unfold gauss_weight, bell. replace (Z.of_nat (0 + (w0 + j)) - Z.of_nat r)%Z with (dist (j + lo r i) i); auto.
    unfold dist, w0, c, cnt, lo in *; lia. }
  assert (N : match (if adjust then None else Some (sum_list (gauss_weights sigma r))) with
              | None => sum_list (map (fun k => nth k (gauss_weights sigma r) 0) (seq w0 c))
              | Some n0 => n0 end = norm_of sigma r n i adjust).
  { unfold norm_of. destruct adjust; rewrite sum_list_total.
    - rewrite total_map_seq. change w0 with (0 + w0)%nat. rewrite sum_from_shift.
      rewrite <- (Nat.add_0_l (lo r i)) at 1. rewrite sum_from_shift.
      apply sum_from_ext. intros k Hk. rewrite <- W by (fold c in Hk; lia). rewrite nth_map_seq by (fold c in Hk; lia).
      f_equal. lia.
    - unfold gauss_weights. rewrite total_map_seq. apply sum_from_ext. intros k Hk.
      unfold gauss_weight, bell, dist. auto. }
  rewrite N. rewrite sum_list_total, total_map_seq.
  unfold Rdiv at 2. rewrite Rmult_comm, <- sum_from_scal.
  transitivity (sum_from (0 + lo r i) c (fun k => / norm_of sigma r n i adjust * (bell sigma (dist k i) * val signal k)));
    [|reflexivity].
  rewrite sum_from_shift. apply sum_from_ext.
  intros j Hj. rewrite W by lia. rewrite nth_map_seq by lia. unfold val.
  replace (j + lo r i)%nat with (lo r i + j)%nat by lia. unfold Rdiv. ring.
Qed.

Lemma gauss_length g signal : length (gauss_smooth g signal) = length signal.
Proof. unfold gauss_smooth. rewrite map_length, seq_length. auto. Qed.

Lemma gauss_val sigma r adjust g signal i : gauss_init sigma r adjust = inr g ->
  (i < length signal)%nat ->
  val (gauss_smooth g signal) i =
  sum_from (lo r i) (cnt r (length signal) i) (fun k => bell sigma (dist k i) * val signal k)
  / norm_of sigma r (length signal) i adjust.
Proof.
  intros E H. unfold val at 1, gauss_smooth. rewrite nth_map_seq by auto. eapply smooth_one_spec; eauto.
Qed.

(** ---- cutting ---- *)
Lemma part_length l a b : (a <= b)%nat -> (b <= length l)%nat -> length (part l a b) = (b - a)%nat.
Proof. intros. unfold part. rewrite firstn_length, skipn_length. lia. Qed.

Lemma remove_nth_app {A} (a : list A) x b : remove_nth (a ++ x :: b) (length a) = a ++ b.
Proof. induction a; simpl; auto. rewrite IHa. auto. Qed.

Lemma del_loop_spec flags : forall i n_cuts done rest,
  length rest = length flags -> (length done + n_cuts)%nat = i ->
  del_loop flags i n_cuts (done ++ rest) = Some (done ++ kept flags rest).
Proof.
  induction flags as [|f flags IH]; intros i n_cuts done rest L E.
  - destruct rest; [|discriminate]. simpl. auto.
  - destruct rest as [|x rest]; [discriminate|]. simpl in L. cbn [del_loop kept]. destruct f.
    + replace (i - n_cuts)%nat with (length done) by lia.
      replace (length done <? length (done ++ x :: rest))%nat with true.
      2:{ symmetry. apply Nat.ltb_lt. rewrite app_length. simpl. lia. }
      rewrite remove_nth_app. apply IH; lia.
    + replace (done ++ x :: rest) with ((done ++ [x]) ++ rest) by (rewrite <- app_assoc; auto).
      rewrite (IH (S i) n_cuts); [|lia|rewrite app_length; simpl; lia].
      rewrite <- app_assoc. auto.
Qed.

Lemma at_set_same s c l : (c < length s)%nat -> at_ (set_nth s c l) c = l.
Proof. unfold at_. revert c. induction s; intros [|c] H; simpl in *; auto; try lia. apply IHs. lia. Qed.
Lemma at_set_other s c c' l : c <> c' -> at_ (set_nth s c l) c' = at_ s c'.
Proof.
  unfold at_. revert c c'. induction s as [|y s IH]; intros [|c] [|c'] H; simpl; auto; try lia. 
Qed.
Lemma set_nth_length {A} (s : list A) c l : length (set_nth s c l) = length s.
Proof. revert c. induction s; intros [|c]; simpl; auto. Qed.

Lemma del_columns_spec flags cols : forall s,
  NoDup cols -> (forall c, In c cols -> (c < length s)%nat /\ length (at_ s c) = length flags) ->
  exists s', del_columns flags cols s = inr s' /\
    (forall c, In c cols -> at_ s' c = kept flags (at_ s c)) /\
    (forall c, ~ In c cols -> at_ s' c = at_ s c).
Proof.
  induction cols as [|c cols IH]; intros s N H.
  - exists s. simpl. repeat split; auto. contradiction.
  - destruct (H c (or_introl eq_refl)) as [Hc Lc]. inversion N; subst. cbn [del_columns].
    pose proof (del_loop_spec flags 0 0 [] (at_ s c) Lc eq_refl) as D. cbn [app] in D. rewrite D.
    destruct (IH (set_nth s c (kept flags (at_ s c)))) as (s' & E & A & B); auto.
    { intros c' Hc'. rewrite set_nth_length. rewrite at_set_other by (intros ->; auto).
      apply H. simpl. auto. }
    exists s'. split; auto. split.
    + intros c' [<- | Hc'].
      * rewrite B by auto. apply at_set_same; auto.
      * rewrite A by auto. rewrite at_set_other by (intros ->; auto). auto.
    + intros c' Hc'. rewrite B by (intros X; apply Hc'; simpl; auto).
      rewrite at_set_other by (intros ->; apply Hc'; simpl; auto). auto.
Qed.

Lemma np_mean_avg l : l <> [] -> np_mean l = Some (average l).
Proof. destruct l; [contradiction|]. intros _. unfold np_mean, average. rewrite sum_list_total. auto. Qed.

Lemma slice_part l a b : slice l (Z.of_nat a) b = part l a b.
Proof.
  unfold slice, part. destruct (Z.ltb_spec (Z.of_nat a) 0) as [H|H]; [lia|]. rewrite Nat2Z.id. auto.
Qed.

Lemma nth_part l a b k d : (a + k < b)%nat -> (b <= length l)%nat -> nth k (part l a b) d = nth (a + k) l d.
Proof.
  intros A B. unfold part.
  assert (G : forall (m : list R) c k, (k < c)%nat -> nth k (firstn c m) d = nth k m d).
  { induction m as [|x m IH]; intros [|c] [|k0] Hk; simpl; auto; try lia. apply IH. lia. }
  rewrite G by lia. clear G. revert a A. induction l as [|x l IH]; intros a A.
  - rewrite skipn_nil. destruct k, a; auto.
  - destruct a; auto. simpl. destruct b; [lia|]. simpl in B.
    revert IH B A. generalize b. intros. 
    assert (S : forall (m : list R) a k, nth k (skipn a m) d = nth (a + k) m d).
    { induction m; intros [|a'] k'; simpl; auto. destruct k'; auto. }
    apply S.
Qed.

Lemma flat_map_windows (f : nat -> list bool) step q : (0 < step)%nat ->
  (forall i, (i < q)%nat -> length (f i) = step) ->
  length (flat_map f (seq 0 q)) = (q * step)%nat /\
  forall j, (j < q * step)%nat -> nth j (flat_map f (seq 0 q)) false = nth (j mod step) (f (j / step)%nat) false.
Proof.
  intros Hs. induction q as [|q IH]; intros H.
  - split; auto. intros; lia.
  - destruct IH as [L N]; [intros; apply H; lia|].
    rewrite seq_S, flat_map_app. simpl flat_map. rewrite app_nil_r.
    split; [rewrite app_length, L, H by lia; lia|].
    intros j Hj. destruct (lt_dec j (q * step)) as [Hl|Hl].
    + rewrite app_nth1 by lia. apply N. auto.
    + rewrite app_nth2 by lia. rewrite L.
      assert (Q : (j / step)%nat = q).
      { symmetry. apply (Nat.div_unique j step q (j - q * step)); simpl in *; nia. }
      rewrite Q. f_equal. rewrite Nat.mod_eq, Q by lia. nia.
Qed.

Lemma cut_flags_spec cut step signal : (0 < step)%nat -> let n := length signal in
  length (cut_flags cut step signal) = n /\
  forall j, (j < n)%nat -> let (a, b) := window_of step n j in
    nth j (cut_flags cut step signal) false = far_from cut (average (part signal a b)) (val signal j).
Proof.
  intros Hs n. unfold cut_flags. fold n. set (q := (n / step)%nat).
  assert (Q : (q * step <= n)%nat) by (unfold q; rewrite Nat.mul_comm; apply Nat.mul_div_le; lia).
  set (f := fun i : nat => let w := slice signal (Z.of_nat (i * step)) ((i + 1) * step) in map (far cut (np_mean w)) w).
  assert (Lf : forall i, (i < q)%nat -> length (f i) = step).
  { intros i Hi. unfold f. rewrite map_length, slice_part, part_length; nia. }
  destruct (flat_map_windows f step q Hs Lf) as [L N].
  match goal with |- length (?h ++ ?t) = _ /\ _ => set (last := t) end.
  assert (Ll : length last = (n - q * step)%nat).
  { unfold last. rewrite map_length, skipn_length. auto. }
  split; [rewrite app_length, L, Ll; lia|].
  intros j Hj. unfold window_of. fold q. destruct (Nat.ltb_spec j (q * step)) as [H|H].
  - rewrite app_nth1 by lia. rewrite N by auto.
    assert (Hd : (j / step < q)%nat) by (apply Nat.div_lt_upper_bound; nia).
    pose proof (Nat.div_mod j step ltac:(lia)) as Dm. pose proof (Nat.mod_upper_bound j step ltac:(lia)) as Mb.
    unfold f. rewrite slice_part.
    replace ((j / step + 1) * step)%nat with (j / step * step + step)%nat by lia.
    set (a := (j / step * step)%nat). assert (Ha : (a + step <= n)%nat) by (unfold a; nia).
    set (w := part signal a (a + step)).
    assert (Lw : length w = step) by (unfold w; rewrite part_length; lia).
    rewrite (nth_indep _ false (far cut (np_mean w) 0)) by (rewrite map_length; lia).
    rewrite map_nth. rewrite np_mean_avg by (intros E; rewrite E in Lw; simpl in Lw; lia).
    unfold w at 2. rewrite nth_part by lia. unfold far, far_from, rltb, val.
    replace (a + j mod step)%nat with j by (unfold a; lia). auto.
  - rewrite app_nth2 by lia. rewrite L. unfold last.
    rewrite (nth_indep _ false (far cut (np_mean (slice signal (Z.of_nat n - Z.of_nat step) n)) 0))
      by (fold last; rewrite Ll; lia).
    rewrite map_nth.
    assert (V : nth (j - q * step) (skipn (q * step) signal) 0 = val signal j).
    { unfold val. replace (nth j signal 0) with (nth (q * step + (j - q * step)) signal 0) by (f_equal; lia).
      rewrite <- (nth_part signal (q * step) n) by lia. unfold part. rewrite firstn_all2; auto.
      rewrite skipn_length. lia. }
    rewrite V.
    assert (S : slice signal (Z.of_nat n - Z.of_nat step) n =
                if (step <=? n)%nat then part signal (n - step) n else part signal (2 * n - step) n).
    { destruct (Nat.leb_spec step n).
      - rewrite <- slice_part. f_equal. lia.
      - unfold slice, part. fold n. destruct (Z.ltb_spec (Z.of_nat n - Z.of_nat step) 0); [|lia].
        replace (Z.to_nat (Z.of_nat n - Z.of_nat step + Z.of_nat n)) with (2 * n - step)%nat by lia. auto. }
    rewrite S.
    assert (Hw : (if (step <=? n)%nat then part signal (n - step) n else part signal (2 * n - step) n) <> []).
    { intros E. apply (f_equal (@length R)) in E. destruct (Nat.leb_spec step n);
        rewrite part_length in E; simpl in E; fold n; lia. }
    destruct (step <=? n)%nat; rewrite np_mean_avg by auto; reflexivity.
Qed.
