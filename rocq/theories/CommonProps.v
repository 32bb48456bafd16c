(** Properties C30 to C36: histograms, bin edges, sorting of tables, grids, shells and
    multiprocessing of a list. *)
From Coq Require Import Reals ZArith List Bool Lia Lra Permutation Sorted Arith.
From Verif Require Import PyLibModel PyLibProofs HitPyModel HitPySpec HitPyProofs MomentSpec CommonModel CommonSpec
  CommonProofs GridProofs.
Import ListNotations.
Open Scope list_scope.
Open Scope R_scope.

(** ---- C30 --------------------------------------------------------------------------- *)

(** Every bin holds the total weight of the entries whose x and y lie in it. *)
Theorem C30_bin_contents : forall xs ys ws xb yb,
  increasing xb -> increasing yb -> xb <> [] -> yb <> [] ->
  length ys = length xs -> length ws = length xs ->
  exists m, histogram xs xb (Some (ys, yb)) (Some ws) = inr (m, xb, yb) /\
    shape (length xb - 1) (length yb - 1) m /\
    forall p q, (p < length xb - 1)%nat -> (q < length yb - 1)%nat ->
      sum_where (fun e => in_bin xb p (e_x e) /\ in_bin yb q (e_y e)) e_w (entries xs ys ws) (ent m p q).
Proof.
  intros xs ys ws xb yb IX IY NX NY LY LW.
  destruct (fill_spec xb yb IX IY xs ys ws _ LY LW (zeros_shape (length xb - 1) (length yb - 1)))
    as (m & E & S & H).
  exists m. split; [|split; auto].
  - unfold histogram. destruct xb; [congruence|]. destruct yb; [congruence|].
    fold (@repeat R) in *. rewrite E. reflexivity.
  - intros p q Hp Hq. destruct (H p q Hp Hq) as (s & Hs & ->).
    rewrite zeros_ent, Rplus_0_l. exact Hs.
Qed.

(** The sum of all bins is the total weight of the entries in range. *)
Theorem C30_total_contents : forall xs ys ws xb yb m,
  increasing xb -> increasing yb -> xb <> [] -> yb <> [] ->
  length ys = length xs -> length ws = length xs ->
  histogram xs xb (Some (ys, yb)) (Some ws) = inr (m, xb, yb) ->
  sum_where (fun e => in_range xb (e_x e) /\ in_range yb (e_y e)) e_w (entries xs ys ws)
    (sum_n (length xb - 1) (fun p => sum_n (length yb - 1) (fun q => ent m p q))).
Proof.
  intros xs ys ws xb yb m IX IY NX NY LY LW E.
  destruct (C30_bin_contents xs ys ws xb yb) as (m' & E' & _ & H); auto.
  rewrite E in E'. injection E' as <-.
  pose proof (cells_total xb yb (entries xs ys ws) IX IY) as T.
  rewrite (sum_n_ext _ _ (fun p => sum_n (length yb - 1) (fun q => rsum (cell xb yb p q) (entries xs ys ws)))).
  - exact T.
  - intros p Hp. apply sum_n_ext. intros q Hq. apply sum_cell. apply H; auto.
Qed.

(** An entry lies in one bin if it is in range and in none otherwise. *)
Theorem C30_one_bin : forall edges x, increasing edges ->
  (in_range edges x -> exists p, in_bin edges p x /\ (p < length edges - 1)%nat /\
                                 forall q, in_bin edges q x -> q = p) /\
  (~ in_range edges x -> forall p, ~ in_bin edges p x).
Proof.
  intros edges x I. split.
  - intros H. apply in_range_bin in H; auto. destruct H as [p H]. exists p. split; auto. split.
    + destruct H as (a & b & _ & E & _).
      assert (S p < length edges)%nat by (apply nth_error_Some; congruence). lia.
    + intros q Hq. eapply (in_bin_unique edges); eauto.
  - intros N p H. apply N. apply in_range_bin; eauto.
Qed.

(** A histogram of one variable. *)
Theorem C30_one_dimension : forall xs ws xb,
  increasing xb -> xb <> [] -> length ws = length xs ->
  exists m, histogram xs xb None (Some ws) = inr (m, xb, []) /\ shape (length xb - 1) 1 m /\
    forall p, (p < length xb - 1)%nat ->
      sum_where (fun e => in_bin xb p (fst e)) snd (combine xs ws) (ent m p 0).
Proof.
  intros xs ws xb IX NX LW.
  assert (IY : increasing [-1; 1]).
  { intros i j a b Hij Ha Hb. destruct i as [|[|i]], j as [|[|j]]; simpl in *; try lia;
      repeat match goal with H : nth_error [] ?k = Some _ |- _ => destruct k; discriminate H end;
      injection Ha as <-; injection Hb as <-; lra. }
  destruct (C30_bin_contents xs (map (fun _ => 0) xs) ws xb [-1; 1]) as (m & E & S & H); auto.
  { discriminate. } { apply map_length. }
  exists m. split; [|split; auto].
  - unfold histogram in *. destruct xb; [congruence|].
    destruct (fill _ _ _ _ _ _); [discriminate|]. injection E as ->. reflexivity.
  - intros p Hp. specialize (H p 0%nat Hp (Nat.lt_0_succ _)). revert H. generalize (ent m p 0).
    clear - LW. revert ws LW. induction xs as [|x xs IH]; intros [|w ws] L s H; try discriminate.
    + simpl in *. inversion H; subst. constructor.
    + injection L as L. unfold entries in *. simpl in H |- *. inversion H as [|? ? s' P H'|? ? ? P H']; subst.
      * destruct P as [P _]. change (e_w (x, 0, w)) with (snd (x, w)). apply sum_in; auto.
      * apply sum_out; auto. intros Q. apply P. split; auto.
        exists (-1), 1. unfold e_y. simpl. repeat split; lra.
Qed.

(** Without weights every entry counts one. *)
Theorem C30_default_weights : forall xs xb y,
  histogram xs xb y None = histogram xs xb y (Some (repeat 1 (length xs))).
Proof.
  intros. unfold histogram. replace (map (fun _ : R => 1) xs) with (repeat 1 (length xs)); auto.
  induction xs; simpl; f_equal; auto.
Qed.

(** Three entries: on a lower edge, inside, and on the last edge (not counted). *)
Example C30_case : exists m,
  histogram [0; 1 / 2; 2; 1] [0; 1; 2] (Some ([0; 0; 0; 3 / 2], [0; 1; 2])) (Some [1; 2; 4; 8])
    = inr (m, [0; 1; 2], [0; 1; 2]) /\
  ent m 0 0 = 3 /\ ent m 1 1 = 8 /\ ent m 1 0 = 0.
Proof.
  assert (IX : increasing [0; 1; 2]).
  { intros i j a b Hij Ha Hb. destruct i as [|[|[|i]]], j as [|[|[|j]]]; simpl in *; try lia;
      repeat match goal with H : nth_error [] ?k = Some _ |- _ => destruct k; discriminate H end;
      injection Ha as <-; injection Hb as <-; lra. }
  destruct (C30_bin_contents [0; 1 / 2; 2; 1] [0; 0; 0; 3 / 2] [1; 2; 4; 8] [0; 1; 2] [0; 1; 2])
    as (m & E & _ & H); auto; try discriminate.
  exists m. split; auto.
  assert (G : forall p q s, (p < 2)%nat -> (q < 2)%nat ->
    sum_where (fun e => in_bin [0; 1; 2] p (e_x e) /\ in_bin [0; 1; 2] q (e_y e)) e_w
       (entries [0; 1 / 2; 2; 1] [0; 0; 0; 3 / 2] [1; 2; 4; 8]) s -> ent m p q = s).
  { intros p q s Hp Hq Hs. eapply sum_where_unique; [apply H; auto|exact Hs]. }
  unfold entries in G. cbn [combine] in G.
  assert (B : forall p x a b, nth_error [0; 1; 2] p = Some a -> nth_error [0; 1; 2] (S p) = Some b ->
    in_bin [0; 1; 2] p x <-> a <= x < b).
  { intros p x a b Ea Eb. split; [intros (a' & b' & Ea' & Eb' & K); congruence|intros K; exists a, b; auto]. }
  split; [|split].
  - replace 3 with (e_w (0, 0, 1) + (e_w (1 / 2, 0, 2) + 0)) by (unfold e_w; simpl; lra).
    apply G; auto. apply sum_in; [rewrite !(B 0%nat _ 0 1) by auto; unfold e_x, e_y; simpl; lra|].
    apply sum_in; [rewrite !(B 0%nat _ 0 1) by auto; unfold e_x, e_y; simpl; lra|].
    apply sum_out; [rewrite !(B 0%nat _ 0 1) by auto; unfold e_x, e_y; simpl; lra|].
    apply sum_out; [rewrite !(B 0%nat _ 0 1) by auto; unfold e_x, e_y; simpl; lra|]. constructor.
  - replace 8 with (e_w (1, 3 / 2, 8) + 0) by (unfold e_w; simpl; lra).
    apply G; auto.
    do 3 (apply sum_out; [rewrite !(B 1%nat _ 1 2) by auto; unfold e_x, e_y; simpl; lra|]).
    apply sum_in; [rewrite !(B 1%nat _ 1 2) by auto; unfold e_x, e_y; simpl; lra|]. constructor.
  - apply G; auto.
    do 4 (apply sum_out; [rewrite !(B 1%nat _ 1 2), !(B 0%nat _ 0 1) by auto; unfold e_x, e_y; simpl; lra|]).
    constructor.
Qed.

(** ---- C31 --------------------------------------------------------------------------- *)

(** The range that min_max returns contains every value that counts, and is no wider
    than the margin makes it. *)
Theorem C31_min_max : forall xs ws margin, length ws = length xs -> 0 <= margin ->
  exists lo hi, min_max xs ws margin None None = inr (lo, hi, xs) /\ lo < hi /\
    (forall x w, In (x, w) (combine xs ws) -> 1 / 1000000 < w -> lo <= x <= hi) /\
    (forall x w, In (x, w) (combine xs ws) -> 1 / 1000000 < w ->
       exists a b, (exists wa, In (a, wa) (combine xs ws) /\ 1 / 1000000 < wa) /\
                   (exists wb, In (b, wb) (combine xs ws) /\ 1 / 1000000 < wb) /\
                   (1 / 1000000000 <= b - a ->
                    lo = a - margin * (b - a) /\ hi = b + margin * (b - a))).
Proof.
  intros xs ws margin L Hm.
  destruct (min_max_cases xs ws margin None None (or_introl L)) as (sel & Hs & _ & E).
  specialize (Hs L). cbn zeta in E.
  set (lo := match sel with [] => 0 | y :: r => py_min r y end) in *.
  set (hi := match sel with [] => 0 | y :: r => py_max r y end) in *.
  assert (In_heavy : forall x, In x (heavy xs ws) -> exists w, In (x, w) (combine xs ws) /\ 1 / 1000000 < w).
  { intros x Hx. unfold heavy in Hx. apply in_map_iff in Hx. destruct Hx as ([x' w] & <- & Hx).
    apply filter_In in Hx. destruct Hx as [Hx W]. apply rltb_true in W. exists w. auto. }
  assert (LH : lo <= hi).
  { unfold lo, hi. destruct sel as [|y r]; [lra|].
    pose proof (proj1 (proj2 (py_min_spec r y))). pose proof (proj1 (proj2 (py_max_spec r y))). lra. }
  assert (BR : forall x, In x sel -> lo <= x <= hi).
  { unfold lo, hi. destruct sel as [|y r]; [contradiction|].
    destruct (py_min_spec r y) as (_ & A & B). destruct (py_max_spec r y) as (_ & C & D).
    intros x [<-|Hx]; [lra|]. split; [apply B|apply D]; auto. }
  assert (MM : 0 <= (hi - lo) * margin) by (apply Rmult_le_pos; lra).
  eexists. eexists. split; [exact E|].
  destruct (rltb _ _) eqn:S; [apply rltb_true in S|apply rltb_false in S].
  - split; [lra|]. split.
    + intros x w Hx W. assert (In x sel) by (subst sel; eapply heavy_in; eauto).
      specialize (BR x H). lra.
    + intros x w Hx W. exists x, x. split; [eauto|]. split; [eauto|]. intros. lra.
  - split; [lra|]. split.
    + intros x w Hx W. assert (In x sel) by (subst sel; eapply heavy_in; eauto).
      specialize (BR x H). lra.
    + intros x w Hx W. assert (Ix : In x sel) by (subst sel; eapply heavy_in; eauto).
      assert (Ilo : In lo sel).
      { unfold lo. destruct sel as [|y r]; [contradiction|].
        destruct (py_min_spec r y) as ([-> | A] & _); simpl; auto. }
      assert (Ihi : In hi sel).
      { unfold hi. destruct sel as [|y r]; [contradiction|].
        destruct (py_max_spec r y) as ([-> | A] & _); simpl; auto. }
      exists lo, hi. split; [apply In_heavy; congruence|]. split; [apply In_heavy; congruence|].
      intros _. split; ring.
Qed.

(** User limits replace the automatic ones. *)
Theorem C31_min_max_user : forall xs ws margin a b, length ws = length xs \/ ws = [] ->
  min_max xs ws margin (Some a) (Some b) = inr (a, b, xs).
Proof.
  intros xs ws margin a b H. destruct (min_max_cases xs ws margin (Some a) (Some b) H) as (sel & _ & _ & E).
  exact E.
Qed.

(** n bins: n + 1 equally spaced edges between the limits. *)
Theorem C31_edges : forall xs n xmin xmax, (1 <= n)%Z ->
  exists edges lo hi, get_bin_edges xs n xmin xmax = inr edges /\
    Z.of_nat (length edges) = (n + 1)%Z /\
    (forall i, (Z.of_nat i <= n)%Z ->
       nth_error edges i = Some (lo + (hi - lo) * (INR i / IZR n))) /\
    nth_error edges 0 = Some lo /\ nth_error edges (Z.to_nat n) = Some hi /\
    (forall a, xmin = Some a -> lo = a) /\ (forall b, xmax = Some b -> hi = b) /\
    (xmin = None -> forall x, In x xs -> lo <= x) /\
    (xmax = None -> forall x, In x xs -> x <= hi) /\
    (xmin = None -> xmax = None -> lo < hi) /\
    (lo < hi -> forall i j a b, (i < j)%nat -> nth_error edges i = Some a ->
                nth_error edges j = Some b -> a < b).
Proof.
  intros xs n xmin xmax Hn.
  destruct (min_max_cases xs [] 0 None None (or_intror eq_refl)) as (sel & _ & Hs & E).
  specialize (Hs eq_refl). subst sel. cbn zeta in E.
  set (l0 := match xs with [] => 0 | y :: r => py_min r y end) in *.
  set (h0 := match xs with [] => 0 | y :: r => py_max r y end) in *.
  assert (LH : l0 <= h0).
  { unfold l0, h0. destruct xs as [|y r]; [lra|].
    pose proof (proj1 (proj2 (py_min_spec r y))). pose proof (proj1 (proj2 (py_max_spec r y))). lra. }
  assert (BR : forall x, In x xs -> l0 <= x <= h0).
  { unfold l0, h0. destruct xs as [|y r]; [contradiction|].
    destruct (py_min_spec r y) as (_ & A & B). destruct (py_max_spec r y) as (_ & C & D).
    intros x [<-|Hx]; [lra|]. split; [apply B|apply D]; auto. }
  set (lo := if rltb _ _ then _ else _) in E at 1. set (hi := if rltb _ _ then _ else _) in E.
  assert (P : lo <= l0 /\ h0 <= hi /\ lo < hi).
  { unfold lo, hi. destruct (rltb _ _) eqn:S; [apply rltb_true in S|apply rltb_false in S]; lra. }
  clearbody lo hi. destruct P as (P1 & P2 & P3).
  set (lo' := match xmin with Some a => a | None => lo end).
  set (hi' := match xmax with Some b => b | None => hi end).
  assert (NZ : 0 < IZR n) by (apply (IZR_lt 0); lia).
  set (edges := map (fun i => lo' + (hi' - lo') / IZR n * INR i) (seq 0 (Z.to_nat (n + 1)))).
  assert (LE : length edges = Z.to_nat (n + 1)) by (unfold edges; rewrite map_length, seq_length; auto).
  assert (NE : forall i, (Z.of_nat i <= n)%Z -> nth_error edges i = Some (lo' + (hi' - lo') * (INR i / IZR n))).
  { intros i Hi. unfold edges. rewrite nth_error_map, (nth_error_nth' _ 0%nat) by (rewrite seq_length; lia).
    rewrite seq_nth by lia. simpl. f_equal. field. lra. }
  exists edges, lo', hi'. split.
  { unfold get_bin_edges. rewrite E. destruct (Z.eqb_spec n 0) as [Z|_]; [lia|]. reflexivity. }
  split; [lia|]. split; [exact NE|]. split.
  { rewrite NE by lia. f_equal. simpl. field. lra. }
  split.
  { rewrite NE by lia. f_equal. rewrite INR_IZR_INZ, Z2Nat.id by lia. field. lra. }
  split; [intros a ->; reflexivity|]. split; [intros b ->; reflexivity|].
  split; [intros -> x Hx; specialize (BR x Hx); unfold lo'; lra|].
  split; [intros -> x Hx; specialize (BR x Hx); unfold hi'; lra|].
  split; [intros -> ->; exact P3|].
  intros LT i j a b Hij Ha Hb.
  assert (Hj : (j < length edges)%nat) by (apply nth_error_Some; congruence).
  rewrite NE in Ha by lia. rewrite NE in Hb by lia. injection Ha as <-. injection Hb as <-.
  apply Rplus_lt_compat_l, Rmult_lt_compat_l; [lra|].
  apply Rmult_lt_compat_r; [apply Rinv_0_lt_compat; auto|]. apply lt_INR. auto.
Qed.

(** With the automatic range the largest value is in no bin (unless all values coincide):
    it is missing from the histogram. *)
Theorem C31_top_value_lost : forall xs n edges a b, (1 <= n)%Z ->
  get_bin_edges xs n None None = inr edges ->
  In a xs -> In b xs -> (forall x, In x xs -> x <= b) -> 1 / 1000000000 <= b - a ->
  forall p, ~ in_bin edges p b.
Proof.
  intros xs n edges a b Hn E Ha Hb Hmax Hab p (u & v & Eu & Ev & K).
  destruct (C31_edges xs n None None Hn) as (e & lo & hi & E' & L & NE & _ & _ & _ & _ & _ & _ & LH & ST).
  rewrite E in E'. injection E' as <-.
  (* hi is b *)
  assert (HB : hi = b).
  { destruct (min_max_cases xs [] 0 None None (or_intror eq_refl)) as (sel & _ & Hs & M).
    specialize (Hs eq_refl). subst sel. cbn zeta in M.
    destruct xs as [|y r]; [contradiction|].
    destruct (py_min_spec r y) as (_ & A1 & A2). destruct (py_max_spec r y) as (B0 & B1 & B2).
    assert (MB : py_max r y = b).
    { apply Rle_antisym.
      - apply Hmax. destruct B0 as [-> | B0]; simpl; auto.
      - destruct Hb as [-> | Hb]; auto. }
    assert (ML : py_min r y <= a) by (destruct Ha as [-> | Ha]; auto).
    rewrite MB in M. unfold rltb in M.
    destruct (Rlt_dec _ _) as [S|S] in M; [lra|].
    unfold get_bin_edges in E. rewrite M in E. destruct (Z.eqb_spec n 0) as [Z|_]; [lia|].
    injection E as E. specialize (NE (Z.to_nat n) ltac:(lia)). rewrite <- E in NE.
    rewrite nth_error_map, (nth_error_nth' _ 0%nat) in NE by (rewrite seq_length; lia).
    rewrite seq_nth in NE by lia. cbn [option_map] in NE. injection NE as NE.
    rewrite ?Nat.add_0_l in NE. rewrite !INR_IZR_INZ, !Z2Nat.id in NE by lia.
    assert (0 < IZR n) by (apply (IZR_lt 0); lia).
    assert (N2 : forall l h : R, l + (h - l) * (IZR n / IZR n) = h) by (intros; field; lra).
    assert (N3 : forall l h : R, l + (h - l) / IZR n * IZR n = h) by (intros; field; lra).
    rewrite N2, N3 in NE. lra. }
  assert (SL : (S p < length edges)%nat) by (apply nth_error_Some; congruence).
  rewrite NE in Ev by lia. apply (f_equal (fun o => match o with Some z => z | None => 0 end)) in Ev.
  cbv beta iota in Ev.
  assert (0 < IZR n) by (apply (IZR_lt 0); lia).
  assert (F : INR (S p) / IZR n <= 1).
  { apply (Rmult_le_reg_r (IZR n)); auto. unfold Rdiv. rewrite Rmult_assoc, Rinv_l by lra.
    rewrite Rmult_1_r, Rmult_1_l, INR_IZR_INZ. apply IZR_le. lia. }
  assert ((hi - lo) * (INR (S p) / IZR n) <= (hi - lo) * 1).
  { apply Rmult_le_compat_l; auto. specialize (LH eq_refl eq_refl). lra. }
  lra.
Qed.

Example C31_case_top : exists edges, get_bin_edges [3; 1; 2] 4 None None = inr edges /\
  forall p, ~ in_bin edges p 3.
Proof.
  destruct (C31_edges [3; 1; 2] 4 None None) as (e & _ & _ & E & _); [lia|].
  exists e. split; auto. apply (C31_top_value_lost [3; 1; 2] 4 e 1 3); simpl; auto; try lia; try lra.
  intros x [<-|[<-|[<-|[]]]]; lra.
Qed.

(** A weight list shorter than the list of values is not ignored: the values it refers to
    are appended to the list of the caller. *)
Lemma mm_loop_shared xs ws : forall pre suf ext, xs = pre ++ suf -> (length ws <= length suf)%nat ->
  mm_loop true ws (length pre) (xs ++ ext) (xs ++ ext) =
  inr (xs ++ ext ++ heavy suf ws, xs ++ ext ++ heavy suf ws).
Proof.
  induction ws as [|w r IH]; intros pre suf ext E L.
  - simpl. unfold heavy. destruct suf; simpl; rewrite app_nil_r; reflexivity.
  - destruct suf as [|x suf]; [simpl in L; lia|]. simpl in L. cbn [mm_loop].
    assert (N : nth_error (xs ++ ext) (length pre) = Some x).
    { subst. rewrite <- app_assoc, nth_error_app2 by lia. rewrite Nat.sub_diag. reflexivity. }
    assert (LP : S (length pre) = length (pre ++ [x])) by (rewrite app_length; simpl; lia).
    unfold heavy. cbn [combine filter]. cbn [snd]. destruct (rltb (1 / 1000000) w).
    + rewrite N, LP. rewrite <- app_assoc.
      rewrite (IH (pre ++ [x]) suf (ext ++ [x])) by (auto; try lia; rewrite <- app_assoc; auto).
      rewrite <- app_assoc. reflexivity.
    + rewrite LP. rewrite (IH (pre ++ [x]) suf ext) by (auto; try lia; rewrite <- app_assoc; auto). reflexivity.
Qed.

Theorem C31_caller_list_refuted : forall xs ws margin, (length ws < length xs)%nat ->
  exists lo hi extra, min_max xs ws margin None None = inr (lo, hi, xs ++ extra) /\
    (forall x w, In (x, w) (combine xs ws) -> 1 / 1000000 < w -> In x extra).
Proof.
  intros xs ws margin L. unfold min_max.
  destruct (Nat.eqb_spec (length ws) (length xs)) as [E|_]; [lia|]. cbn [negb].
  pose proof (mm_loop_shared xs ws [] xs [] eq_refl ltac:(lia)) as M. cbn [length] in M.
  rewrite !app_nil_r in M. rewrite M. cbn [app].
  destruct (xs ++ heavy xs ws) eqn:E.
  - destruct xs; [simpl in L; lia|discriminate].
  - eexists. eexists. exists (heavy xs ws). rewrite <- E. split; [reflexivity|].
    intros x w Hx W. unfold heavy. apply in_map_iff. exists (x, w). split; auto.
    apply filter_In. split; auto. apply rltb_true. auto.
Qed.

Example C31_case_caller : exists lo hi extra,
  min_max [1; 2; 3] [1] 0 None None = inr (lo, hi, [1; 2; 3] ++ extra) /\ In 1 extra.
Proof.
  destruct (C31_caller_list_refuted [1; 2; 3] [1] 0) as (lo & hi & ex & E & H); [simpl; lia|].
  exists lo, hi, ex. split; auto. apply (H 1 1); simpl; auto. lra.
Qed.

(** ---- C32 --------------------------------------------------------------------------- *)

(** The rows of a table with n rows. *)
Definition rows {A} (n : nat) (cols : list (list A)) : list (list (option A)) :=
  map (row cols) (seq 0 n).

(** Rows whose first entry is equivalent to x. *)
Definition same_key {A} (ltb : A -> A -> bool) (x : A) (r : list (option A)) : bool :=
  match r with Some y :: _ => negb (ltb x y) && negb (ltb y x) | _ => false end.

Lemma weak_row {A} (ltb : A -> A -> bool) : weak_order ltb ->
  weak_order (fun a b : A * list A => ltb (fst a) (fst b)).
Proof.
  intros W. constructor; intros.
  - apply (wo_irr _ W).
  - apply (wo_asym _ W); auto.
  - eapply (wo_trans _ W); eauto.
Qed.

(** Sorting rows that are not empty. *)
Lemma sort_cons_rows {A} (ltb : A -> A -> bool) (l : list (A * list A)) :
  sort (row_ltb ltb) (map (fun p => fst p :: snd p) l) =
  map (fun p => fst p :: snd p) (sort (fun a b => ltb (fst a) (fst b)) l).
Proof.
  induction l as [|x l IH]; simpl; auto. rewrite IH.
  generalize (sort (fun a b : A * list A => ltb (fst a) (fst b)) l). intros s.
  induction s as [|y s IHs]; simpl; auto. destruct (ltb (fst y) (fst x)); simpl; auto.
  rewrite IHs. reflexivity.
Qed.

Theorem C32_multisort : forall (A : Type) (ltb : A -> A -> bool) (n : nat) (cols : list (list A)),
  weak_order ltb -> cols <> [] -> table n cols ->
  exists out, multisort ltb cols = inr out /\
    length out = length cols /\ table n out /\
    Permutation (rows n out) (rows n cols) /\
    (forall x, filter (same_key ltb x) (rows n out) = filter (same_key ltb x) (rows n cols)) /\
    (forall first i j x y, nth_error out 0 = Some first -> (i <= j)%nat ->
       nth_error first i = Some x -> nth_error first j = Some y -> ltb y x = false).
Proof.
  intros A ltb n cols W NE T.
  destruct (rows_of_rect cols n T) as (rs & E & L & LR & HR).
  assert (ME : multisort ltb cols = inr (write_back (sort (row_ltb ltb) rs) cols)).
  { unfold multisort. destruct cols as [|c0 cols']; [congruence|].
    rewrite (T c0) by (simpl; auto). rewrite E. reflexivity. }
  rewrite ME. clear ME.
  set (srt := sort (row_ltb ltb) rs).
  destruct (write_back_row srt cols n T) as (LO & TO & HO).
  { unfold srt. rewrite sort_length. auto. }
  { intros r Hr. apply LR. eapply sort_in; eauto. }
  assert (RO : rows n (write_back srt cols) = map (map Some) srt).
  { apply list_ext. intros i. unfold rows. rewrite !nth_error_map.
    destruct (Nat.lt_ge_cases i n) as [Hi|Hi].
    - rewrite (nth_error_nth' _ 0%nat) by (rewrite seq_length; auto). rewrite seq_nth by auto. simpl.
      destruct (nth_error srt i) as [r|] eqn:Er.
      + simpl. f_equal. apply HO. auto.
      + apply nth_error_None in Er. unfold srt in Er. rewrite sort_length in Er. lia.
    - rewrite (proj2 (nth_error_None _ _)) by (rewrite seq_length; auto).
      rewrite (proj2 (nth_error_None srt i)); auto. unfold srt. rewrite sort_length. lia. }
  assert (RI : rows n cols = map (map Some) rs).
  { apply list_ext. intros i. unfold rows. rewrite !nth_error_map.
    destruct (Nat.lt_ge_cases i n) as [Hi|Hi].
    - rewrite (nth_error_nth' _ 0%nat) by (rewrite seq_length; auto). rewrite seq_nth by auto. simpl.
      destruct (nth_error rs i) as [r|] eqn:Er.
      + simpl. f_equal. symmetry. apply HR. auto.
      + apply nth_error_None in Er. lia.
    - rewrite (proj2 (nth_error_None _ _)) by (rewrite seq_length; auto).
      rewrite (proj2 (nth_error_None rs i)); auto. lia. }
  (* rows as pairs *)
  assert (PR : exists l, rs = map (fun p : A * list A => fst p :: snd p) l).
  { clear - LR NE. induction rs as [|r rs IH]; [exists []; auto|].
    destruct IH as [l ->]; [intros; apply LR; simpl; auto|].
    destruct r as [|x r]; [specialize (LR [] (or_introl eq_refl)); destruct cols; [congruence|discriminate]|].
    exists ((x, r) :: l). reflexivity. }
  destruct PR as [l El].
  assert (ES : srt = map (fun p => fst p :: snd p) (sort (fun a b => ltb (fst a) (fst b)) l)).
  { unfold srt. rewrite El. apply sort_cons_rows. }
  exists (write_back srt cols). split; [reflexivity|]. split; auto. split; auto. split; [|split].
  - rewrite RO, RI. apply Permutation_map. apply sort_perm.
  - intros x. rewrite RO, RI, ES, El, !map_map.
    set (F := fun p : A * list A => map Some (fst p :: snd p)).
    assert (FM : forall s : list (A * list A), filter (same_key ltb x) (map F s) =
      map F (filter (fun p => negb (ltb x (fst p)) && negb (ltb (fst p) x)) s)).
    { induction s as [|p s IH]; auto.
      change (filter (same_key ltb x) (map F (p :: s))) with
        (if negb (ltb x (fst p)) && negb (ltb (fst p) x) then F p :: filter (same_key ltb x) (map F s)
         else filter (same_key ltb x) (map F s)).
      rewrite IH. cbn [filter]. destruct (negb (ltb x (fst p)) && negb (ltb (fst p) x)); reflexivity. }
    rewrite !FM. f_equal. apply (sort_stable _).
    intros a b Ha Hb. rewrite !andb_true_iff, !negb_true_iff in *.
    destruct Ha as [A1 A2], Hb as [B1 B2].
    apply (wo_trans _ W (fst b) x (fst a)); auto.
  - intros first i j x y Hf Hij Hx Hy.
    assert (G : forall k z, nth_error first k = Some z -> exists r, nth_error srt k = Some (z :: r)).
    { intros k z Hk.
      assert (Kn : (k < n)%nat).
      { rewrite <- (TO first) by (eapply nth_error_In; eauto). apply nth_error_Some. congruence. }
      destruct (nth_error srt k) as [r|] eqn:Er.
      - specialize (HO k r Er). unfold row in HO. destruct (write_back srt cols) as [|o out]; [discriminate|].
        simpl in Hf. injection Hf as ->. simpl in HO. rewrite Hk in HO.
        destruct r as [|z' r]; [discriminate|]. injection HO as <- _. eauto.
      - apply nth_error_None in Er. unfold srt in Er. rewrite sort_length in Er. lia. }
    destruct (G i x Hx) as [r Hr]. destruct (G j y Hy) as [s Hs].
    rewrite ES in Hr, Hs. rewrite nth_error_map in Hr, Hs.
    destruct (nth_error (sort _ l) i) as [[x' r']|] eqn:Ei; [|discriminate].
    destruct (nth_error (sort _ l) j) as [[y' s']|] eqn:Ej; [|discriminate].
    simpl in Hr, Hs. injection Hr as <- <-. injection Hs as <- <-.
    pose proof (sorted_nth _ _ (sort_sorted _ (weak_row ltb W) l) i j _ _ Hij Ei Ej) as [Eq|LE].
    + subst j. rewrite Ei in Ej. injection Ej as <- <-. apply (wo_irr _ W).
    + exact LE.
Qed.

(** A table of two columns with equal keys. *)
Example C32_case : multisort Z.ltb [[3; 1; 3; 2]; [10; 20; 30; 40]]%Z = inr [[1; 2; 3; 3]; [20; 40; 10; 30]]%Z.
Proof. vm_compute. reflexivity. Qed.

(** A list shorter than the first one makes the call fail. *)
Theorem C32_short_list : forall (A : Type) (ltb : A -> A -> bool) first cols c,
  In c cols -> (length c < length first)%nat -> multisort ltb (first :: cols) = inl CIndexError.
Proof.
  intros A ltb first cols c Hc Lc. unfold multisort.
  destruct (rows_of _ _) as [rs|] eqn:E; auto. exfalso.
  unfold rows_of in E. apply all_opt_some in E.
  apply (f_equal (fun l => nth_error l (length c))) in E.
  rewrite !nth_error_map, (nth_error_nth' _ 0%nat) in E by (rewrite seq_length; auto).
  rewrite seq_nth in E by auto. destruct (nth_error rs (length c)) as [r|]; [|discriminate].
  cbn [option_map] in E. injection E as E.
  change (all_opt (map (fun d : list A => nth_error d (length c)) (first :: cols)) = Some r) in E.
  apply all_opt_some in E.
  assert (I : In None (map (fun d : list A => nth_error d (length c)) (first :: cols))).
  { apply in_map_iff. exists c. split; [apply nth_error_None; simpl; auto|simpl; auto]. }
  rewrite E in I. apply in_map_iff in I. destruct I as (? & ? & _). discriminate.
Qed.

(** ---- C33 --------------------------------------------------------------------------- *)

(** User values are kept. *)
Theorem C33_user_values : forall n a b c d, n_bins n (Some a) (Some b) (Some c) d = (a, b, c).
Proof. reflexivity. Qed.

Lemma int_of_nonneg x : 0 <= x -> (0 <= int_of x)%Z.
Proof.
  intros H. unfold int_of, Rfloor. destruct (archimed x) as [A _].
  assert (0 < IZR (up x)) by lra. apply lt_IZR in H0. lia.
Qed.
Lemma power_nonneg x a : 0 <= power x a.
Proof.
  unfold power. destruct (Req_EM_T x 0); [lra|]. left. apply exp_pos.
Qed.

(** Automatic values are at least 1 for every dimension in range and 0 for the others. *)
Theorem C33_automatic : forall n d bx by_ bz, (1 <= d <= 3)%Z ->
  n_bins n None None None d = (bx, by_, bz) ->
  (1 <= bx)%Z /\ (if (2 <=? d)%Z then 1 <= by_ else by_ = 0)%Z /\
  (if (3 <=? d)%Z then 1 <= bz else bz = 0)%Z.
Proof.
  intros n d bx by_ bz Hd E.
  pose proof (int_of_nonneg (INR n / 10)) as I1.
  pose proof (int_of_nonneg (power (INR n) (7 / 10) / 10)) as I2.
  pose proof (int_of_nonneg (power (INR n) (1 / 2) / 10)) as I3.
  pose proof (pos_INR n). pose proof (power_nonneg (INR n) (7 / 10)).
  pose proof (power_nonneg (INR n) (1 / 2)).
  specialize (I1 ltac:(lra)). specialize (I2 ltac:(lra)). specialize (I3 ltac:(lra)).
  assert (D : d = 1%Z \/ d = 2%Z \/ d = 3%Z) by lia.
  destruct D as [-> | [-> | ->]]; cbn -[int_of INR power] in E; injection E as <- <- <-; simpl; lia.
Qed.

(** The number of bins of one variable: one per ten points. *)
Theorem C33_one_dimension : forall n ny bx by_ bz,
  n_bins n None ny None 1 = (bx, by_, bz) -> bx = (Z.of_nat (n / 10) + 1)%Z.
Proof.
  intros n ny bx by_ bz E. cbn -[int_of INR Nat.div] in E. injection E as <- _ _.
  f_equal. unfold int_of, Rfloor.
  assert (U : (Z.of_nat (n / 10) + 1)%Z = up (INR n / 10)).
  { pose proof (Nat.div_mod n 10 ltac:(lia)) as D. pose proof (Nat.mod_upper_bound n 10 ltac:(lia)) as M.
    assert (ED : INR n = 10 * INR (n / 10) + INR (n mod 10)).
    { rewrite D at 1. rewrite plus_INR, mult_INR. simpl INR at 1. lra. }
    apply lt_INR in M. simpl (INR 10) in M. pose proof (pos_INR (n mod 10)).
    apply tech_up; rewrite plus_IZR, <- INR_IZR_INZ, ED; lra. }
  rewrite <- U. lia.
Qed.

(** A histogram of two variables with the automatic number of y bins always fails: the
    number 2 is passed as number of z bins instead of the number of dimensions. *)
Theorem C33_two_axes_refuted : forall xs ws ux ys uy nx xmin xmax ymin ymax,
  bunch_histogram xs ws ux (Some (ys, uy)) nx None xmin xmax ymin ymax = inl CZeroDivision.
Proof.
  intros. unfold bunch_histogram.
  assert (N : exists bx, n_bins (length ys) nx None (Some 2%Z) 1 = (bx, 0%Z, 2%Z)) by (eexists; reflexivity).
  destruct N as [bx ->].
  unfold get_bin_edges. 
  destruct (min_max_cases ys [] 0 None None (or_intror eq_refl)) as (sel & _ & _ & ->). reflexivity.
Qed.

(** With the number of y bins given it works: nx + 1 and ny + 1 edges, and the contents are
    those of the histogram of the values between these edges. *)
Theorem C33_two_axes : forall xs ws ux ys uy nx ny xmin xmax ymin ymax,
  length ys = length xs -> length ws = length xs ->
  (1 <= ny)%Z -> (forall k, nx = Some k -> (1 <= k)%Z) ->
  exists xb yb, 
    bunch_histogram xs ws ux (Some (ys, uy)) nx (Some ny) xmin xmax ymin ymax =
      histogram xs xb (Some (ys, yb)) (Some ws) /\
    Z.of_nat (length yb) = (ny + 1)%Z /\ (2 <= length xb)%nat /\
    (forall k, nx = Some k -> Z.of_nat (length xb) = (k + 1)%Z).
Proof.
  intros xs ws ux ys uy nx ny xmin xmax ymin ymax LY LW Hny Hnx. unfold bunch_histogram.
  set (bx := match nx with Some k => k | None => (int_of (INR (length ys) / 10) + 1)%Z end).
  assert (N : n_bins (length ys) nx (Some ny) (Some 2%Z) 1 = (bx, ny, 2%Z)) by reflexivity.
  rewrite N.
  assert (Hbx : (1 <= bx)%Z).
  { unfold bx. destruct nx; [apply Hnx; auto|].
    pose proof (int_of_nonneg (INR (length ys) / 10)). pose proof (pos_INR (length ys)).
    specialize (H ltac:(lra)). lia. }
  edestruct (C31_edges ys ny) as (yb & _ & _ & Ey & Ly & _); [exact Hny|]. rewrite Ey.
  edestruct (C31_edges xs bx) as (xb & _ & _ & Ex & Lx & _); [exact Hbx|]. rewrite Ex.
  exists xb, yb. split; auto. split; auto. split; [lia|].
  intros k Ek. rewrite Lx. unfold bx. rewrite Ek. reflexivity.
Qed.

(** The limits given by the user are multiplied by the unit although the values are
    already in this unit: the first edge is not the limit unless the unit has size 1. *)
Theorem C33_user_limits_refuted : forall xs ws ux nx a xmax m xb yb,
  (forall k, nx = Some k -> (1 <= k)%Z) -> a <> 0 -> ux <> 1 ->
  bunch_histogram xs ws ux None nx None (Some a) xmax None None = inr (m, xb, yb) ->
  nth_error xb 0 = Some (a * ux) /\ nth_error xb 0 <> Some a.
Proof.
  intros xs ws ux nx a xmax m xb yb Hnx Ha Hu E. unfold bunch_histogram in E.
  set (bx := match nx with Some k => k | None => (int_of (INR (length xs) / 10) + 1)%Z end).
  assert (N : n_bins (length xs) nx (Some 1%Z) None 1 = (bx, 1%Z, 0%Z)) by reflexivity.
  rewrite N in E.
  assert (Hbx : (1 <= bx)%Z).
  { unfold bx. destruct nx; [apply Hnx; auto|].
    pose proof (int_of_nonneg (INR (length xs) / 10)). pose proof (pos_INR (length xs)).
    specialize (H ltac:(lra)). lia. }
  edestruct (C31_edges xs bx (Some (a * ux))) as (e & lo & hi & Ex & _ & _ & E0 & _ & El & _); [exact Hbx|].
  rewrite Ex in E. specialize (El _ eq_refl).
  assert (F : xb = e).
  { unfold histogram in E. destruct e as [|e0 e]; [discriminate|].
    destruct (fill _ _ _ _ _ _); [discriminate|]. injection E as _ <- _. reflexivity. }
  rewrite F, E0, El. split; auto. intros K. injection K as K.
  apply Hu. apply (Rmult_eq_reg_l a); lra.
Qed.

(** Values in cm (unit size 10 in mm) between 1 and 2, lower limit 1: the edges start
    at 10. *)
Example C33_case_limits : exists m xb yb,
  bunch_histogram [1; 2] [1; 1] 10 None (Some 2%Z) None (Some 1) (Some 2) None None = inr (m, xb, yb) /\
  nth_error xb 0 = Some (1 * 10).
Proof.
  unfold bunch_histogram, n_bins.
  edestruct (C31_edges [1; 2] 2 (Some (1 * 10)) (Some (2 * 10))) as
    (e & lo & hi & Ex & _ & _ & E0 & E1 & El & Eh & _ & _ & _ & ST); [lia|].
  cbn -[get_bin_edges histogram]. rewrite Ex.
  rewrite (El _ eq_refl), (Eh _ eq_refl) in *.
  assert (IX : increasing e).
  { intros i j a b Hij Ha Hb. destruct (Nat.eq_dec i j) as [<-|N]; [rewrite Ha in Hb; injection Hb as <-; lra|].
    left. eapply (ST ltac:(lra) i j); eauto. lia. }
  destruct (C30_one_dimension [1; 2] [1; 1] e IX) as (m & Em & _); auto.
  { intros ->. discriminate. }
  exists m, e, []. split; auto.
Qed.

(** ---- C34 --------------------------------------------------------------------------- *)

(** The d-dimensional grid with n points per dimension: n^d different points, exactly the
    combinations of the n coordinates -1, -1 + 2/(n-1), ..., 1. *)
Theorem C34_grid : forall d n, (2 <= n)%nat ->
  length (make_grid d n) = (n ^ d)%nat /\ NoDup (make_grid d n) /\
  forall v, In v (make_grid d n) <->
    length v = d /\ forall x, In x v -> exists j, (j < n)%nat /\ x = -1 + 2 * INR j / (INR n - 1).
Proof.
  intros d n Hn. destruct (grid_loop d n d) as (L & ND & I); try lia. cbn zeta in *.
  fold (make_grid d n) in *. split; auto. split; auto. intros v. rewrite (I Hn). split.
  - intros (Lv & A & _). split; auto. intros x Hx. apply In_nth_error in Hx. destruct Hx as [k Hk].
    assert (Kd : (k < d)%nat) by (rewrite <- Lv; apply nth_error_Some; congruence).
    destruct (A k Kd) as (j & Hj & E). exists j. split; auto. rewrite Hk in E. injection E as ->.
    unfold grid_pos. lra.
  - intros (Lv & H). split; auto. split; [|lia]. intros k Hk.
    destruct (nth_error v k) as [x|] eqn:E; [|apply nth_error_None in E; lia].
    destruct (H x) as (j & Hj & ->); [eapply nth_error_In; eauto|].
    exists j. split; auto. f_equal. unfold grid_pos. lra.
Qed.

(** All coordinates are between -1 and 1; the corners are reached. *)
Theorem C34_box : forall d n, (2 <= n)%nat ->
  (forall v x, In v (make_grid d n) -> In x v -> -1 <= x <= 1) /\
  In (repeat (-1) d) (make_grid d n) /\ In (repeat 1 d) (make_grid d n).
Proof.
  intros d n Hn. destruct (C34_grid d n Hn) as (_ & _ & I). split; [|split].
  - intros v x Hv Hx. apply I in Hv. destruct Hv as (_ & H). destruct (H x Hx) as (j & Hj & ->).
    pose proof (grid_pos_range n j Hn Hj). unfold grid_pos in *. lra.
  - apply I. split; [apply repeat_length|]. intros x Hx. apply repeat_spec in Hx. subst.
    exists 0%nat. split; [lia|]. simpl. unfold Rdiv. lra.
  - apply I. split; [apply repeat_length|]. intros x Hx. apply repeat_spec in Hx. subst.
    exists (n - 1)%nat. split; [lia|]. pose proof (INR_pred n Hn). rewrite minus_INR by lia. simpl. field. lra.
Qed.

(** With one point per dimension the grid is the corner (-1, ..., -1). *)
Theorem C34_single : forall d, make_grid d 1 = [repeat (-1) d].
Proof. exact grid_one. Qed.

Example C34_case : length (make_grid 4 3) = 81%nat /\ In [0; 1; -1; 0] (make_grid 4 3).
Proof.
  destruct (C34_grid 4 3) as (L & _ & I); [lia|]. split; [rewrite L; reflexivity|].
  apply I. split; auto. intros x [<-|[<-|[<-|[<-|[]]]]].
  - exists 1%nat. split; [lia|]. simpl. lra.
  - exists 2%nat. split; [lia|]. simpl. lra.
  - exists 0%nat. split; [lia|]. simpl. lra.
  - exists 1%nat. split; [lia|]. simpl. lra.
Qed.

(** ---- C35 --------------------------------------------------------------------------- *)

(** normalise_vector returns the positive multiple of v with u^T m u = 1, and nothing
    else. *)
Theorem C35_normalise : forall v m d, length v = d -> shape d d m -> 0 < form m v ->
  exists u, normalise_vector v m = inr (Some u) /\ form m u = 1 /\
    exists a, 0 < a /\ u = map (fun x => x * a) v.
Proof.
  intros v m d L S H. destruct (normalise_spec v m d L S H) as (u & E & F & _ & G). eauto.
Qed.

Theorem C35_normalise_rejects : forall v m d, length v = d -> shape d d m -> form m v < 0 ->
  normalise_vector v m = inl CValueError.
Proof.
  intros v m d L S H. unfold normalise_vector. rewrite (qform_form _ _ d) by auto.
  rewrite (proj2 (rltb_true _ _)) by auto. reflexivity.
Qed.

(** All the points of a shell are on the ellipse around the mean. *)
Theorem C35_on_ellipse : forall inv n ellipse minv mean d,
  length mean = d -> length ellipse = d ->
  positive_definite d ellipse -> inv ellipse = Some minv -> inverse_of d ellipse minv -> (2 <= n)%nat ->
  exists pts, make_shell inv n ellipse (Some mean) = inr (map Some pts) /\
    forall p, In p pts -> length p = d /\ form minv (minus p mean) = 1 /\
      exists v a, In v (make_grid d n) /\ 0 < a /\ minus p mean = map (fun x => x * a) v.
Proof.
  intros inv n ellipse minv mean d Lm Le PD E I Hn. pose proof (inverse_positive _ _ _ PD I) as [S P].
  unfold make_shell. rewrite E, Le.
  destruct (shell_spec minv mean d S Lm P (make_grid d n)) as (pts & E' & _ & O & G).
  { intros v Hv. apply (C34_grid d n Hn) in Hv. tauto. }
  exists pts. split; auto. intros p Hp. destruct (O p Hp) as [O1 O2]. split; auto.
Qed.

(** A grid point is rejected only if it is 0, as long as the grid is not extremely fine. *)
Lemma dot_pos v : 0 <= dot v v.
Proof. induction v as [|x v IH]; simpl; [lra|]. nra. Qed.
Lemma dot_ge v x : In x v -> x * x <= dot v v.
Proof.
  induction v as [|y v IH]; intros H; [contradiction|]. simpl. pose proof (dot_pos v).
  destruct H as [-> | H]; [nra|]. specialize (IH H). nra.
Qed.
Lemma dot_zero d : dot (repeat 0 d) (repeat 0 d) = 0.
Proof. induction d; simpl; [auto|]. rewrite IHd. lra. Qed.

Lemma grid_coord_big n j : (2 <= n)%nat -> (INR n - 1) * (INR n - 1) < 1000000000 ->
  (j < n)%nat -> (2 * j <> n - 1)%nat ->
  float_tolerance < (-1 + 2 * INR j / (INR n - 1)) * (-1 + 2 * INR j / (INR n - 1)).
Proof.
  intros Hn Hb Hj Hne. pose proof (INR_pred n Hn) as P.
  assert (E : -1 + 2 * INR j / (INR n - 1) = (2 * INR j - (INR n - 1)) / (INR n - 1)) by (field; lra).
  rewrite E. set (t := 2 * INR j - (INR n - 1)).
  assert (T : 1 <= t * t).
  { assert (TZ : t = IZR (2 * Z.of_nat j - (Z.of_nat n - 1))).
    { unfold t. rewrite !minus_IZR, mult_IZR, <- !INR_IZR_INZ. reflexivity. }
    rewrite TZ, <- mult_IZR. apply (IZR_le 1). nia. }
  replace (t / (INR n - 1) * (t / (INR n - 1))) with (t * t / ((INR n - 1) * (INR n - 1))) by (field; lra).
  unfold float_tolerance. set (q := (INR n - 1) * (INR n - 1)) in *.
  assert (0 < q) by (unfold q; nra).
  apply (Rmult_lt_reg_r q); auto. replace (t * t / q * q) with (t * t) by (field; lra). lra.
Qed.

(** The documented number of points: n^d for even n, n^d - 1 for odd n. *)
Theorem C35_count : forall inv n ellipse minv mean d,
  length mean = d -> length ellipse = d -> (1 <= d)%nat ->
  positive_definite d ellipse -> inv ellipse = Some minv -> inverse_of d ellipse minv ->
  (2 <= n)%nat -> (INR n - 1) * (INR n - 1) < 1000000000 ->
  exists pts, make_shell inv n ellipse (Some mean) = inr (map Some pts) /\
    length pts = if Nat.even n then (n ^ d)%nat else (n ^ d - 1)%nat.
Proof.
  intros inv n ellipse minv mean d Lm Le Hd PD E I Hn Hb.
  pose proof (inverse_positive _ _ _ PD I) as [S P].
  unfold make_shell. rewrite E, Le. destruct (C34_grid d n Hn) as (L & ND & IG).
  destruct (shell_spec minv mean d S Lm P (make_grid d n)) as (pts & E' & C & _).
  { intros v Hv. apply IG in Hv. tauto. }
  exists pts. split; auto. rewrite C.
  assert (Z : forall v, In v (make_grid d n) ->
    (rltb float_tolerance (dot v v) = false <-> v = repeat 0 d)).
  { intros v Hv. split.
    - intros F. apply rltb_false in F. apply IG in Hv. destruct Hv as [Lv Hv].
      rewrite <- Lv. apply Forall_eq_repeat. apply Forall_forall. intros x Hx.
      destruct (Hv x Hx) as (j & Hj & Ex).
      destruct (Nat.eq_dec (2 * j) (n - 1)) as [Ej|Nj].
      + pose proof (INR_pred n Hn). subst x. symmetry.
        assert (EI : 2 * INR j = INR n - 1).
        { rewrite <- (INR_IZR_INZ 2) || idtac. replace 2 with (INR 2) by (simpl; lra).
          rewrite <- mult_INR, Ej, minus_INR by lia. reflexivity. }
        rewrite EI. field. lra.
      + pose proof (grid_coord_big n j Hn Hb Hj Nj) as B. rewrite <- Ex in B.
        pose proof (dot_ge v x Hx). lra.
    - intros ->. apply rltb_false. rewrite dot_zero. unfold float_tolerance. lra. }
  destruct (Nat.even n) eqn:EV.
  - rewrite <- L. f_equal.
    assert (ALL : forall l, (forall v, In v l -> In v (make_grid d n)) ->
       filter (fun v => rltb float_tolerance (dot v v)) l = l).
    { induction l as [|v l IHl]; intros H; auto. simpl.
      destruct (rltb float_tolerance (dot v v)) eqn:F.
      - f_equal. apply IHl. intros; apply H; simpl; auto.
      - exfalso. assert (Hv : In v (make_grid d n)) by (apply H; simpl; auto).
        apply Z in F; auto. subst v. apply IG in Hv. destruct Hv as [_ Hv].
        destruct d as [|d]; [lia|]. destruct (Hv 0) as (j & Hj & Ex); [simpl; auto|].
        pose proof (INR_pred n Hn) as Pn.
        assert (EI : 2 * INR j = INR n - 1).
        { assert (E2 : 2 * INR j / (INR n - 1) = 1) by lra.
          apply (Rmult_eq_compat_r (INR n - 1)) in E2. unfold Rdiv in E2.
          rewrite Rmult_assoc, Rinv_l in E2 by lra. lra. }
        assert (EN : (2 * j = n - 1)%nat).
        { apply INR_eq. rewrite mult_INR, minus_INR by lia. simpl. lra. }
        apply Nat.even_spec in EV. destruct EV as [k ->]. lia. }
    apply ALL. auto.
  - rewrite <- L. apply filter_one with (z := repeat 0 d); auto.
    apply IG. split; [apply repeat_length|]. intros x Hx. apply repeat_spec in Hx. subst.
    assert (OD : Nat.odd n = true) by (unfold Nat.odd; rewrite EV; reflexivity).
    apply Nat.odd_spec in OD. destruct OD as [k ->].
    exists k. split; [lia|]. rewrite plus_INR, mult_INR. simpl.
    assert (1 <= INR k) by (apply (le_INR 1); lia). field. lra.
Qed.

(** The documented count fails for one point per dimension: 1^d - 1 = 0 points are
    promised, one is returned. *)
Theorem C35_single_refuted : forall inv ellipse minv mean d,
  length mean = d -> length ellipse = d -> (1 <= d)%nat ->
  positive_definite d ellipse -> inv ellipse = Some minv -> inverse_of d ellipse minv ->
  exists p, make_shell inv 1 ellipse (Some mean) = inr [Some p].
Proof.
  intros inv ellipse minv mean d Lm Le Hd PD E I. pose proof (inverse_positive _ _ _ PD I) as [S P].
  unfold make_shell. rewrite E, Le, grid_one. cbn [shell_loop].
  assert (T : rltb float_tolerance (dot (repeat (-1) d) (repeat (-1) d)) = true).
  { apply rltb_true. pose proof (dot_ge (repeat (-1) d) (-1)) as G.
    assert (In (-1) (repeat (-1) d)) by (destruct d; [lia|simpl; auto]). specialize (G H).
    unfold float_tolerance. lra. }
  rewrite T. destruct (normalise_spec (repeat (-1) d) minv d) as (u & EU & _); auto.
  { apply repeat_length. }
  { apply P; [apply repeat_length|]. exists 0%nat. destruct d; [lia|]. simpl. lra. }
  rewrite EU. simpl. eauto.
Qed.

(** The identity is positive definite and its own inverse. *)
Lemma identity2_pd : positive_definite 2 [[1; 0]; [0; 1]].
Proof.
  split; [split; auto; intros r [<-|[<-|[]]]; auto|].
  intros v L [i Hi]. destruct v as [|x [|y [|]]]; try discriminate.
  unfold form, ent. simpl. destruct i as [|[|i]]; simpl in Hi; [| |destruct i; congruence]; nra.
Qed.
Lemma identity2_inv : inverse_of 2 [[1; 0]; [0; 1]] [[1; 0]; [0; 1]].
Proof.
  split; [apply identity2_pd|]. exists [[1; 0]; [0; 1]]. split.
  - intros i j Hi Hj. destruct i as [|[|i]]; [| |lia]; destruct j as [|[|j]]; try lia; unfold ent; simpl; lra.
  - intros i j Hi Hj. destruct i as [|[|i]]; [| |lia]; destruct j as [|[|j]]; try lia; unfold ent; simpl; lra.
Qed.

(** A circle with 3 points per dimension: 8 points. *)
Example C35_case : exists pts,
  make_shell (fun m => Some m) 3 [[1; 0]; [0; 1]] (Some [5; 7]) = inr (map Some pts) /\ length pts = 8%nat.
Proof.
  destruct (C35_count (fun m => Some m) 3 [[1; 0]; [0; 1]] [[1; 0]; [0; 1]] [5; 7] 2)
    as (pts & E & L); auto using identity2_pd, identity2_inv; try lia.
  { simpl. lra. }
  exists pts. auto.
Qed.

(** ---- C36 --------------------------------------------------------------------------- *)

(** Whatever the order in which the workers take and finish the jobs, process_list
    returns the outcome for each argument in the order of the arguments. *)
Theorem C36_order : forall (A V : Type) (f : A -> Outcome V) olt workers args p,
  steps f workers (pool_init args) p -> pool_done p ->
  collect olt (p_queue p) = map f args.
Proof.
  intros A V f olt workers args p ST [D1 D2]. apply collect_perm.
  apply steps_jobs in ST. unfold jobs, pool_init in ST. simpl in ST.
  rewrite D1, D2, !app_nil_r, enumerate_map in ST. simpl in ST. symmetry. exact ST.
Qed.

(** Every schedule ends: no more than two steps for each argument. *)
Theorem C36_terminates : forall (A V : Type) (f : A -> Outcome V) workers (p q : Pool A V),
  pool_step f workers p q ->
  (2 * length (p_todo q) + length (p_running q) < 2 * length (p_todo p) + length (p_running p))%nat.
Proof.
  intros A V f workers p q H. destruct H; simpl; rewrite !app_length; simpl; lia.
Qed.

(** With at least one worker the pool never gets stuck before all jobs are done. *)
Theorem C36_progress : forall (A V : Type) (f : A -> Outcome V) workers (p : Pool A V),
  (1 <= workers)%nat -> ~ pool_done p -> exists q, pool_step f workers p q.
Proof.
  intros A V f workers [todo run q] Hw ND. destruct run as [|[i x] run].
  - destruct todo as [|job todo]; [destruct ND; split; auto|].
    eexists. apply (start_job f workers [] job todo); simpl; lia.
  - eexists. apply (finish_job f workers todo [] i x run).
Qed.

(** One entry for each argument, also when the function raises. *)
Theorem C36_exceptions : forall (A V : Type) (f : A -> Outcome V) olt workers args p i x e,
  steps f workers (pool_init args) p -> pool_done p ->
  nth_error args i = Some x -> f x = Raised e ->
  nth_error (collect olt (p_queue p)) i = Some (Raised e) /\
  length (collect olt (p_queue p)) = length args.
Proof.
  intros A V f olt workers args p i x e ST D Hi He.
  rewrite (C36_order A V f olt workers args p ST D). rewrite nth_error_map, Hi, map_length. simpl.
  rewrite He. auto.
Qed.

(** Two workers, three jobs, the second finishes first; the first raises. *)
Example C36_case :
  exists p, steps (fun z => if Z.eqb z 0 then Raised 7%Z else Returned (z * z)%Z) 2
              (pool_init [0; 3; 4]%Z) p /\ pool_done p /\
    map fst (p_queue p) = [1; 0; 2]%nat /\
    collect (fun _ _ => true) (p_queue p) = [Raised 7; Returned 9; Returned 16]%Z.
Proof.
  eexists. split; [|split; [|split]].
  - eapply steps_more; [apply (start_job _ _ [] _ _); simpl; lia|].
    eapply steps_more; [apply (start_job _ _ [] _ _); simpl; lia|].
    eapply steps_more; [apply (finish_job _ _ _ [] 1%nat _ _)|].
    eapply steps_more; [apply (finish_job _ _ _ [] 0%nat _ _)|].
    eapply steps_more; [apply (start_job _ _ [] _ _); simpl; lia|].
    eapply steps_more; [apply (finish_job _ _ _ [] 2%nat _ _)|].
    apply steps_refl.
  - split; reflexivity.
  - reflexivity.
  - reflexivity.
Qed.

Print Assumptions C30_bin_contents.
Print Assumptions C30_total_contents.
Print Assumptions C30_one_bin.
Print Assumptions C30_one_dimension.
Print Assumptions C30_default_weights.
Print Assumptions C31_min_max.
Print Assumptions C31_min_max_user.
Print Assumptions C31_edges.
Print Assumptions C31_top_value_lost.
Print Assumptions C31_caller_list_refuted.
Print Assumptions C32_multisort.
Print Assumptions C32_short_list.
Print Assumptions C33_user_values.
Print Assumptions C33_automatic.
Print Assumptions C33_one_dimension.
Print Assumptions C33_two_axes_refuted.
Print Assumptions C33_two_axes.
Print Assumptions C33_user_limits_refuted.
Print Assumptions C34_grid.
Print Assumptions C34_box.
Print Assumptions C34_single.
Print Assumptions C35_normalise.
Print Assumptions C35_normalise_rejects.
Print Assumptions C35_on_ellipse.
Print Assumptions C35_count.
Print Assumptions C35_single_refuted.
Print Assumptions C36_order.
Print Assumptions C36_terminates.
Print Assumptions C36_progress.
Print Assumptions C36_exceptions.
