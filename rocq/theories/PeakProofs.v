From Coq Require Import Reals ZArith List Bool Sorted Lra Lia.
From Verif Require Import PyLibModel CommonModel AlgoModel AlgoSpec.
Import ListNotations.
Open Scope list_scope.
Open Scope R_scope.

Lemma rltb_true x y : rltb x y = true <-> x < y.
Proof. unfold rltb. destruct (Rlt_dec x y); split; auto; discriminate. Qed.
Lemma rltb_false x y : rltb x y = false <-> y <= x.
Proof. unfold rltb. destruct (Rlt_dec x y); split; intros; try discriminate; auto; lra. Qed.

Lemma sum_list_total l : sum_list l = total l.
Proof.
  assert (G : forall m a, fold_left Rplus m a = a + total m).
  { induction m as [|x m IH]; intros a; simpl; [lra|]. rewrite IH. lra. }
  unfold sum_list. rewrite G. lra.
Qed.

Lemma nth_map_seq {A} (f : nat -> A) n a i d : (i < n)%nat -> nth i (map f (seq a n)) d = f (a + i)%nat.
Proof.
  intros H. rewrite (nth_indep _ d (f 0%nat)) by (rewrite map_length, seq_length; auto).
  rewrite map_nth, seq_nth by auto. reflexivity.
Qed.

(** ---- uphill-downhill ---- *)
Lemma derivative_spec data : length (derivative data) = (length data - 1)%nat /\
  forall i, (i < length data - 1)%nat -> nth i (derivative data) 0 = val data (S i) - val data i.
Proof.
  unfold derivative. assert (L : length (tl data) = (length data - 1)%nat) by (destruct data; simpl; lia).
  rewrite L. split; [rewrite map_length, seq_length; auto|].
  intros i Hi.
  rewrite nth_map_seq by auto. reflexivity.
Qed.

Lemma uphill_in data p : In p (uphill_peaks data) <-> local_max data p.
Proof.
  destruct (derivative_spec data) as [L D]. unfold uphill_peaks, local_max.
  assert (L' : length (tl (derivative data)) = (length data - 2)%nat).
  { destruct (derivative data); simpl in *; lia. }
  rewrite in_map_iff. split.
  - intros (i & <- & Hi). apply filter_In in Hi. destruct Hi as [Hi E]. apply in_seq in Hi.
    apply andb_prop in E. destruct E as [E1 E2]. apply rltb_true in E1, E2.
    rewrite D in E1, E2 by lia. replace (S i - 1)%nat with i by lia.
    repeat split; try lia; lra.
  - intros (A & B & C1 & C2). exists (p - 1)%nat. split; [lia|]. apply filter_In.
    split; [apply in_seq; lia|]. rewrite andb_true_iff, !rltb_true.
    rewrite !D by lia. replace (S (p - 1)) with p by lia. lra.
Qed.

Lemma filter_seq_sorted f n a : increasing (filter f (seq a n)).
Proof.
  revert a. induction n as [|n IH]; intros a; simpl; [constructor|].
  destruct (f a); [|apply IH]. constructor; [apply IH|].
  apply Forall_forall. intros x Hx. apply filter_In in Hx. destruct Hx as [Hx _].
  apply in_seq in Hx. lia.
Qed.
Lemma map_S_sorted l : increasing l -> increasing (map S l).
Proof.
  induction 1 as [|x l H IH F]; simpl; constructor; auto.
  apply Forall_forall. intros y Hy. apply in_map_iff in Hy. destruct Hy as (z & <- & Hz).
  rewrite Forall_forall in F. specialize (F z Hz). lia.
Qed.
Lemma uphill_sorted data : increasing (uphill_peaks data).
Proof. apply map_S_sorted, filter_seq_sorted. Qed.

(** ---- windows ---- *)
Lemma range_from_in fuel : forall i n step, (0 < step)%nat -> (n <= i + fuel)%nat ->
  forall x, In x (range_from fuel i n step) <-> (i <= x < n)%nat /\ exists k, x = (i + k * step)%nat.
Proof.
  induction fuel as [|f IH]; intros i n step Hs Hf x; simpl.
  - split; [contradiction|]. intros [H _]. lia.
  - destruct (Nat.ltb_spec i n) as [H|H].
    + simpl. rewrite IH by lia. split.
      * intros [<- | [A [k E]]]; [split; [lia|exists 0%nat; lia]|].
        split; [lia|]. exists (S k). simpl. lia.
      * intros [A [k E]]. destruct k as [|k]; [left; simpl in E; lia|].
        right. simpl in E. split; [nia|]. exists k. lia.
    + split; [contradiction|]. intros [A _]. lia.
Qed.
Lemma range_from_sorted fuel : forall i n step, (0 < step)%nat -> (n <= i + fuel)%nat ->
  increasing (range_from fuel i n step).
Proof.
  induction fuel as [|f IH]; intros i n step Hs Hf; simpl; [constructor|].
  destruct (Nat.ltb_spec i n) as [H|H]; [|constructor]. constructor; [apply IH; lia|].
  apply Forall_forall. intros y Hy. apply range_from_in in Hy; try lia.
Qed.
Lemma py_range_in n step x : (0 < step)%nat ->
  (In x (py_range n step) <-> (x < n)%nat /\ exists k, x = (k * step)%nat).
Proof.
  intros H. unfold py_range. rewrite range_from_in by lia.
  split; intros [A B]; (split; [lia|]); exact B.
Qed.

Lemma max_at_spec l : forall i best m j v, max_at l i best m = (j, v) ->
  (best < i)%nat ->
  (j = best /\ v = m /\ forall k, (k < length l)%nat -> val l k <= m) \/
  ((i <= j < i + length l)%nat /\ v = val l (j - i) /\ m < v /\
   (forall k, (k < j - i)%nat -> val l k < v) /\
   (forall k, (j - i <= k < length l)%nat -> val l k <= v)).
Proof.
  induction l as [|x l IH]; intros i best m j v E Hb; simpl in E.
  - left. inversion E; subst. repeat split; auto. simpl. lia.
  - destruct (rltb m x) eqn:C.
    + apply rltb_true in C. apply IH in E; [|lia]. right. destruct E as [(-> & -> & A)|(A & B & D & F & G)].
      * simpl length. replace (i - i)%nat with 0%nat by lia. split; [lia|]. split; [reflexivity|].
        split; auto. split; [lia|]. intros k Hk. destruct k as [|k]; [simpl; unfold val; simpl; lra|].
        apply (A k). lia.
      * simpl length. split; [lia|]. replace (j - i)%nat with (S (j - S i)) by lia.
        split; [exact B|]. split; [lra|]. split.
        -- intros k Hk. destruct k as [|k]; [unfold val; simpl; lra|]. apply (F k). lia.
        -- intros k Hk. destruct k as [|k]; [lia|]. apply (G k). lia.
    + apply rltb_false in C. apply IH in E; [|lia]. destruct E as [(-> & -> & A)|(A & B & D & F & G)].
      * left. repeat split; auto. intros k Hk. destruct k as [|k]; [unfold val; simpl; lra|].
        apply (A k). simpl in Hk. lia.
      * right. simpl length. split; [lia|]. replace (j - i)%nat with (S (j - S i)) by lia.
        split; [exact B|]. split; [lra|]. split.
        -- intros k Hk. destruct k as [|k]; [unfold val; simpl; lra|]. apply (F k). lia.
        -- intros k Hk. destruct k as [|k]; [lia|]. apply (G k). lia.
Qed.

Lemma val_window data i size k : (k < size)%nat -> (i + size <= length data)%nat ->
  val (firstn size (skipn i data)) k = val data (i + k).
Proof.
  intros A B. unfold val.
  rewrite <- (firstn_skipn i data) at 2. rewrite app_nth2; rewrite firstn_length; [|lia].
  replace (i + k - Nat.min i (length data))%nat with k by lia.
  rewrite <- (firstn_skipn size (skipn i data)) at 2. rewrite app_nth1; auto.
  rewrite firstn_length, skipn_length. lia.
Qed.

Lemma first_max_spec data i size : (0 < size)%nat -> (i + size <= length data)%nat ->
  exists j, first_max (firstn size (skipn i data)) = Some (j, val data (i + j)) /\
    window_max data i size (i + j).
Proof.
  intros Hs Hl. assert (L : length (firstn size (skipn i data)) = size)
    by (rewrite firstn_length, skipn_length; lia).
  pose proof (fun k H => val_window data i size k H Hl) as V.
  destruct (firstn size (skipn i data)) as [|x l]; [simpl in L; lia|].
  unfold first_max. destruct (max_at l 1 0 x) as [j v] eqn:E.
  apply max_at_spec in E; [|lia]. simpl in L. exists j.
  destruct E as [(-> & -> & A)|(A & B & D & F & G)].
  - split; [rewrite <- V by lia; reflexivity|]. split; [lia|]. split; [lia|].
    intros q Hq. replace q with (i + (q - i))%nat by lia. rewrite <- !V by lia.
    destruct (q - i)%nat eqn:Eq; [unfold val; simpl; lra|]. apply (A n). lia.
  - assert (Bv : v = val data (i + j)).
    { rewrite B, <- V by lia. destruct j; [lia|]. simpl. rewrite Nat.sub_0_r. reflexivity. }
    split; [rewrite <- Bv; reflexivity|]. split; [lia|]. rewrite <- Bv. split.
    + intros q Hq. replace q with (i + (q - i))%nat by lia. rewrite <- !V by lia.
      destruct (q - i)%nat eqn:Eq; [unfold val; simpl; lra|]. apply (F n). lia.
    + intros q Hq. replace q with (i + (q - i))%nat by lia. rewrite <- !V by lia.
      destruct (q - i)%nat eqn:Eq; [unfold val; simpl; lra|]. apply (G n). lia.
Qed.

Lemma window_max_unique data i size p p' :
  window_max data i size p -> window_max data i size p' -> p = p'.
Proof.
  intros (A & B & C) (A' & B' & C'). destruct (Nat.lt_trichotomy p p') as [H|[H|H]]; auto.
  - specialize (B' p ltac:(lia)). specialize (C p' ltac:(lia)). lra.
  - specialize (B p' ltac:(lia)). specialize (C' p ltac:(lia)). lra.
Qed.

(** A later window has its maximum at the same place or later. *)
Lemma window_max_later data size i i' p p' : (i <= i')%nat ->
  window_max data i size p -> window_max data i' size p' -> (p <= p')%nat.
Proof.
  intros H (A & B & C) (A' & B' & C'). destruct (le_lt_dec p p') as [|L]; auto.
  specialize (B p' ltac:(lia)). specialize (C' p ltac:(lia)). lra.
Qed.

Definition good (data : list R) size threshold (i p : nat) : Prop :=
  window_max data i size p /\ ~ on_inner_edge (length data) i size p /\
  stands_out threshold (part data i (i + size)) (val data p).

Lemma over_threshold_spec threshold test m :
  over_threshold threshold test m = true <-> stands_out threshold test m.
Proof.
  unfold over_threshold, stands_out. rewrite !sum_list_total. cbv zeta.
  destruct (rltb threshold 1) eqn:E.
  - apply rltb_true in E. split; auto.
  - apply rltb_false in E. rewrite rltb_true. split; [auto|]. intros [H|H]; [lra|auto].
Qed.

Lemma window_loop_spec data size threshold starts : forall peaks,
  (0 < size)%nat -> (forall i, In i starts -> (i + size <= length data)%nat) ->
  NoDup peaks ->
  exists out, window_loop data size threshold starts peaks = inr (peaks ++ out) /\
    NoDup (peaks ++ out) /\
    forall p, In p (peaks ++ out) <-> In p peaks \/ exists i, In i starts /\ good data size threshold i p.
Proof.
  induction starts as [|i starts IH]; intros peaks Hs Hst Hn.
  - exists []. simpl. rewrite app_nil_r. split; auto. split; auto.
    intros p. split; auto. intros [H|(i & [] & _)]; auto.
  - cbn [window_loop].
    destruct (first_max_spec data i size Hs (Hst i (or_introl eq_refl))) as (j & -> & W).
    assert (Hle := Hst i (or_introl eq_refl)).
    assert (Hst' : forall k, In k starts -> (k + size <= length data)%nat)
      by (intros; apply Hst; simpl; auto).
    assert (Skip : forall peaks', NoDup peaks' ->
       (forall p, In p peaks' <-> In p peaks \/ good data size threshold i p) ->
       (exists l, peaks' = peaks ++ l) ->
       exists out, window_loop data size threshold starts peaks' = inr (peaks ++ out) /\
         NoDup (peaks ++ out) /\ forall p, In p (peaks ++ out) <->
           In p peaks \/ exists k, In k (i :: starts) /\ good data size threshold k p).
    { intros peaks' N P (l & El). destruct (IH peaks' Hs Hst' N) as (out & E & No & Ho).
      exists (l ++ out). rewrite app_assoc, <- El. split; auto. split; auto.
      intros p. rewrite Ho, P. split.
      - intros [[H|H]|(k & Hk & H)]; auto; right; [exists i|exists k]; simpl; auto.
      - intros [H|(k & [<- | Hk] & H)]; eauto. }
    assert (Edge : ((negb (i =? 0)%nat && (j =? 0)%nat)
                    || (negb (i =? length data - size)%nat && (j =? size - 1)%nat))%bool = true <->
                   on_inner_edge (length data) i size (i + j)).
    { unfold on_inner_edge. rewrite orb_true_iff, !andb_true_iff, !negb_true_iff, !Nat.eqb_neq, !Nat.eqb_eq.
      destruct W as (Wb & _). lia. }
    destruct (orb _ _) eqn:Eb.
    { apply Skip; auto.
      - intros p. split; auto. intros [H|(G & Ne & _)]; auto. exfalso. apply Ne.
        rewrite (window_max_unique _ _ _ _ _ G W). apply Edge. auto.
      - exists []. rewrite app_nil_r. auto. }
    assert (Ne : ~ on_inner_edge (length data) i size (i + j)) by (rewrite <- Edge; congruence).
    assert (Test : firstn size (skipn i data) = part data i (i + size)).
    { unfold part. replace (i + size - i)%nat with size by lia. auto. }
    rewrite Test. rewrite (Nat.add_comm j i).
    destruct (existsb (Nat.eqb (i + j)) peaks) eqn:Ex.
    { apply existsb_exists in Ex. destruct Ex as (q & Hq & Eq). apply Nat.eqb_eq in Eq. subst q.
      apply Skip; auto.
      - intros p. split; auto. intros [H|(G & _ & _)]; auto.
        rewrite (window_max_unique _ _ _ _ _ G W). auto.
      - exists []. rewrite app_nil_r. auto. }
    assert (Nin : ~ In (i + j)%nat peaks).
    { intros H. assert (existsb (Nat.eqb (i + j)) peaks = true); [|congruence].
      apply existsb_exists. exists (i + j)%nat. rewrite Nat.eqb_refl. auto. }
    destruct (over_threshold threshold (part data i (i + size)) (val data (i + j))) eqn:Ot.
    + apply over_threshold_spec in Ot. apply Skip.
      * apply NoDup_rev in Hn. rewrite <- (rev_involutive peaks).
        replace (rev (rev peaks) ++ [(i + j)%nat]) with (rev ((i + j)%nat :: rev peaks)) by reflexivity.
        apply NoDup_rev. constructor; auto. rewrite <- in_rev. auto.
      * intros p. rewrite in_app_iff. simpl. split.
        -- intros [H|[<- | []]]; auto. right. split; auto.
        -- intros [H|(G & _ & _)]; auto. right. left. symmetry. eapply window_max_unique; eauto.
      * eauto.
    + apply Skip; auto.
      * intros p. split; auto. intros [H|(G & _ & S)]; auto. exfalso.
        rewrite (window_max_unique _ _ _ _ _ G W) in S. apply over_threshold_spec in S. congruence.
      * exists []. rewrite app_nil_r. auto.
Qed.

Lemma window_loop_sorted data size threshold starts : forall peaks out,
  (0 < size)%nat -> (forall i, In i starts -> (i + size <= length data)%nat) ->
  increasing starts -> increasing peaks ->
  (forall i k, In i starts -> In k peaks ->
     exists i' , (i' <= i)%nat /\ window_max data i' size k) ->
  window_loop data size threshold starts peaks = inr out -> increasing out.
Proof.
  induction starts as [|i starts IH]; intros peaks out Hs Hst Si Sp Hk E.
  - simpl in E. inversion E; subst; auto.
  - cbn [window_loop] in E.
    destruct (first_max_spec data i size Hs (Hst i (or_introl eq_refl))) as (j & Ej & W).
    rewrite Ej in E. inversion Si as [|? ? Si' Fi]; subst.
    assert (Hst' : forall k, In k starts -> (k + size <= length data)%nat)
      by (intros; apply Hst; simpl; auto).
    assert (Hk' : forall i0 k, In i0 starts -> In k peaks ->
              exists i', (i' <= i0)%nat /\ window_max data i' size k)
      by (intros; apply Hk; simpl; auto).
    destruct (orb _ _); [apply (IH peaks out); auto|].
    destruct (existsb (Nat.eqb (j + i)) peaks) eqn:Ex; [apply (IH peaks out); auto|].
    destruct (over_threshold _ _ _); [|apply (IH peaks out); auto].
    rewrite (Nat.add_comm j i) in *.
    apply (IH (peaks ++ [(i + j)%nat]) out); [auto|auto|auto| | |exact E].
    + assert (Fp : forall k, In k peaks -> (k < i + j)%nat).
      { intros k Hkp. destruct (Hk i k (or_introl eq_refl) Hkp) as (i' & Hi' & W').
        pose proof (window_max_later _ _ _ _ _ _ Hi' W' W).
        assert (k <> (i + j)%nat); [|lia]. intros ->.
        assert (existsb (Nat.eqb (i + j)) peaks = true); [|congruence].
        apply existsb_exists. exists (i + j)%nat. rewrite Nat.eqb_refl. auto. }
      clear - Sp Fp. induction Sp as [|x l S IHl F]; simpl; [repeat constructor|].
      constructor; [apply IHl; intros; apply Fp; simpl; auto|].
      apply Forall_app. split; auto. constructor; auto. apply Fp. simpl. auto.
    + intros i0 k Hi0 Hkp. apply in_app_or in Hkp. destruct Hkp as [Hkp|[<- | []]].
      * apply Hk; simpl; auto.
      * exists i. split; auto. rewrite Forall_forall in Fi. specialize (Fi i0 Hi0). lia.
Qed.
