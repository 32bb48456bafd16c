(** Property C86: plots with ROOT. *)
From Coq Require Import Reals ZArith Lia Lra String List Bool Permutation Sorted Ascii.
From Verif Require Import Num WeightModel HitcoreModel HitcoreSpec PyLibModel PyLibProofs BunchModel BunchSpec BunchProps HitPyModel
  MomentModel MomentSpec MomentProofs StatProofs BunchNumModel HitPySpec CommonModel CommonSpec CommonProofs EllipseModel EllipseSpec
  TwissProofs TableModel QueryModel QueryProofs MomentProps QueryProps CommonProps PlotModel PlotSpec PlotProofs.
Import ListNotations.
Open Scope string_scope.
Open Scope list_scope.
Open Scope R_scope.

(** ---- histograms ---- *)

(** The weights of the calls of Fill: those given, or 1 for each value if there are none. *)
Definition fill_weights (xs ws : list R) : list R := match ws with [] => map (fun _ => 1) xs | _ => ws end.

Lemma fills_x xs ys ws : List.length ys = List.length xs -> List.length ws = List.length xs \/ ws = [] ->
  map e_x (fills xs ys ws) = xs /\ map e_y (fills xs ys ws) = ys /\ map e_w (fills xs ys ws) = fill_weights xs ws.
Proof.
  intros L H. unfold fills.
  set (v := if Nat.eqb (List.length ws) (List.length xs) then ws else map (fun _ => 1) xs).
  assert (V : v = fill_weights xs ws).
  { unfold v, fill_weights. destruct (Nat.eqb_spec (List.length ws) (List.length xs)) as [E|N].
    - destruct ws; auto. destruct xs; [reflexivity|discriminate].
    - destruct H as [H| ->]; [congruence|reflexivity]. }
  assert (LV : List.length v = List.length xs).
  { unfold v. destruct (Nat.eqb_spec (List.length ws) (List.length xs)); auto. apply map_length. }
  rewrite <- V. clearbody v. clear V H ws.
  assert (LC : List.length (combine xs ys) = List.length v) by (rewrite combine_length; lia).
  split; [|split].
  - change e_x with (fun e : R * R * R => fst (fst e)). rewrite <- (map_map fst fst), combine_fst, combine_fst by auto. reflexivity.
  - change e_y with (fun e : R * R * R => snd (fst e)). rewrite <- (map_map fst snd), combine_fst, combine_snd by auto. reflexivity.
  - change e_w with (@snd (R * R) R). apply combine_snd; auto.
Qed.

Definition drawn_values (xs ws l : list R) : Prop := ws = [] /\ l = xs \/ ws <> [] /\ counted xs ws l.

Lemma min_max_drawn xs ws margin xmin xmax : List.length ws = List.length xs \/ ws = [] ->
  exists l lo hi, drawn_values xs ws l /\ axis margin l xmin xmax lo hi /\ min_max xs ws margin xmin xmax = inr (lo, hi, xs).
Proof.
  intros H. destruct (min_max_axis xs ws margin xmin xmax H) as (l & lo & hi & A & B & C & E).
  exists l, lo, hi. split; [|auto]. unfold drawn_values. destruct ws as [|v ws]; [left; auto|right].
  split; [discriminate|]. destruct H as [H|H]; [|discriminate]. rewrite (B H). apply heavy_counted.
Qed.

(** C86.  make_root_histogram with values xs, one weight for each of them or none: a TH1D unless there are as many
    y values; every value is filled once, in order, with its weight (1 without weights).  The limits
    of the axis are the smallest and the largest value of weight above 1e-6 unless the user gives others.  The lists of the
    caller stay as they are. *)
Theorem C86_histogram :
  forall k name xs xt (n : Z) ys yt ny ws xmin xmax ymin ymax title,
    List.length ys <> List.length xs -> List.length ws = List.length xs \/ ws = [] ->
    exists h lo hi l k',
      make_root_histogram k name xs xt (Some n) ys yt ny ws xmin xmax ymin ymax title = (k', inr (h, xs, ys)) /\
      rh_2d h = false /\ rh_nx h = n /\ rh_x h = (lo, hi) /\
      drawn_values xs ws l /\ axis 0 l xmin xmax lo hi /\
      map e_x (rh_fills h) = xs /\ map e_w (rh_fills h) = fill_weights xs ws /\
      k' = mkKept (k_canvas k) (k_hist k ++ [h]) (k_graph k) /\ rh_title h = (title ++ ";" ++ xt)%string.
Proof.
  intros k name xs xt n ys yt ny ws xmin xmax ymin ymax title L H.
  destruct (min_max_drawn xs ws histo_margin xmin xmax H) as (l & lo & hi & D & A & E).
  destruct (fills_x xs (map (fun _ => 0) xs) ws (map_length _ _) H) as (F1 & _ & F3).
  unfold make_root_histogram. destruct (Nat.eqb_spec (List.length ys) (List.length xs)) as [Q|_]; [congruence|].
  rewrite E. cbn [of_cerr bins_arg]. eexists. exists lo, hi, l. eexists. split; [reflexivity|].
  cbn [rh_2d rh_nx rh_x rh_fills rh_title]. do 3 (split; [reflexivity|]). split; [exact D|]. split; [exact A|].
  split; [exact F1|]. split; [exact F3|]. split; reflexivity.
Qed.
Print Assumptions C86_histogram.

(** C86.  With as many y values as x values: a TH2D with both. *)
Theorem C86_histogram_2d :
  forall k name xs xt (n m : Z) ys yt ws xmin xmax ymin ymax title,
    List.length ys = List.length xs -> List.length ws = List.length xs \/ ws = [] ->
    exists h xlo xhi xl ylo yhi yl k',
      make_root_histogram k name xs xt (Some n) ys yt (Some m) ws xmin xmax ymin ymax title = (k', inr (h, xs, ys)) /\
      rh_2d h = true /\ rh_nx h = n /\ rh_ny h = m /\ rh_x h = (xlo, xhi) /\ rh_y h = (ylo, yhi) /\
      drawn_values xs ws xl /\ axis 0 xl xmin xmax xlo xhi /\
      drawn_values ys ws yl /\ axis 0 yl ymin ymax ylo yhi /\
      map e_x (rh_fills h) = xs /\ map e_y (rh_fills h) = ys /\ map e_w (rh_fills h) = fill_weights xs ws /\
      k' = mkKept (k_canvas k) (k_hist k ++ [h]) (k_graph k) /\ rh_title h = (title ++ ";" ++ xt ++ ";" ++ yt)%string.
Proof.
  intros k name xs xt n m ys yt ws xmin xmax ymin ymax title L H.
  destruct (min_max_drawn xs ws histo_margin xmin xmax H) as (l & lo & hi & D & A & E).
  assert (H2 : List.length ws = List.length ys \/ ws = []) by (rewrite L; exact H).
  destruct (min_max_drawn ys ws histo_margin ymin ymax H2) as (l2 & lo2 & hi2 & D2 & A2 & E2).
  destruct (fills_x xs ys ws L H) as (F1 & F2 & F3).
  unfold make_root_histogram. rewrite L, Nat.eqb_refl.
  rewrite E, E2. cbn [of_cerr bins_arg]. eexists. exists lo, hi, l, lo2, hi2, l2. eexists. split; [reflexivity|].
  cbn [rh_2d rh_nx rh_ny rh_x rh_y rh_fills rh_title]. do 5 (split; [reflexivity|]).
  do 7 (split; [assumption|]). split; reflexivity.
Qed.
Print Assumptions C86_histogram_2d.

(** x and weight of the calls of Fill. *)
Definition xw (fs : list (R * R * R)) : list (R * R) := map (fun f => (e_x f, e_w f)) fs.

(** C86.  What the bins of the TH1D then hold: bin i the weights of the values from its lower edge up to, but not
    including, its upper edge; all bins with under- and overflow together hold the total weight. *)
Theorem C86_contents :
  forall k name xs xt (n : Z) ys yt ny ws xmin xmax ymin ymax title k' h lo hi a b,
    List.length ys <> List.length xs -> List.length ws = List.length xs -> (1 <= n)%Z ->
    make_root_histogram k name xs xt (Some n) ys yt ny ws xmin xmax ymin ymax title = (k', inr (h, a, b)) ->
    rh_x h = (lo, hi) -> lo < hi ->
    (forall i, (1 <= i <= n)%Z ->
       sum_where (fun p => lo + IZR (i - 1) * ((hi - lo) / IZR n) <= fst p < lo + IZR i * ((hi - lo) / IZR n)) snd
         (combine xs ws) (bin_content n lo hi (xw (rh_fills h)) i)) /\
    sum_bins (bin_content n lo hi (xw (rh_fills h))) 0 (Z.to_nat n + 2) = rsum (fun v => v) ws.
Proof.
  intros k name xs xt n ys yt ny ws xmin xmax ymin ymax title k' h lo hi a b L H N E X LH.
  destruct (C86_histogram k name xs xt n ys yt ny ws xmin xmax ymin ymax title L (or_introl H))
    as (h' & lo' & hi' & l & k2 & E2 & _ & _ & _ & _ & _ & F1 & F3 & _).
  rewrite E in E2. injection E2 as -> <- -> ->. 
  assert (W : fill_weights xs ws = ws).
  { unfold fill_weights. destruct ws; auto. destruct xs; [reflexivity|discriminate]. }
  rewrite W in F3.
  assert (C : xw (rh_fills h) = combine xs ws).
  { rewrite <- F1, <- F3. unfold xw. clear. induction (rh_fills h) as [|f fs IH]; cbn [map combine]; congruence. }
  rewrite C. split.
  - intros i I. unfold bin_content. clear - N LH I. induction (combine xs ws) as [|[x v] r IH]; cbn [rsum fst snd]; [constructor|].
    destruct (Z.eqb_spec (root_bin n lo hi x) i) as [Q|Q].
    + apply (sum_in _ snd (x, v)); [|exact IH]. cbn [fst]. apply (root_bin_in n lo hi x i N LH I). exact Q.
    + rewrite Rplus_0_l. apply sum_out; [|exact IH]. cbn [fst]. intros P. apply (root_bin_in n lo hi x i N LH I) in P. congruence.
  - rewrite sum_bins_range.
    + rewrite <- (combine_snd xs ws) at 2 by auto. generalize (combine xs ws). intros r. induction r as [|f r IH]; cbn [map rsum]; congruence.
    + intros f _. pose proof (root_bin_range n lo hi (fst f) N LH). lia.
Qed.
Print Assumptions C86_contents.

(** "The axes are detected so as to encapsulate all data" (bunch 1570) is refuted: with automatic limits the axis ends at the
    largest value, which ROOT counts as overflow.  Unless all the values agree, the bins of the axis together
    hold less than the total weight. *)
Theorem C86_top_refuted :
  forall k name xs xt (n : Z) ys yt ny ws ymin ymax title x1 x2,
    List.length ys <> List.length xs -> List.length ws = List.length xs -> (1 <= n)%Z ->
    (forall v, In v ws -> 1 / 1000000 < v) -> In x1 xs -> In x2 xs -> 1 / 1000000000 <= x2 - x1 ->
    exists k' h lo hi,
      make_root_histogram k name xs xt (Some n) ys yt ny ws None None ymin ymax title = (k', inr (h, xs, ys)) /\
      rh_x h = (lo, hi) /\ lo < hi /\ largest hi xs /\ root_bin n lo hi hi = (n + 1)%Z /\
      sum_bins (bin_content n lo hi (xw (rh_fills h))) 1 (Z.to_nat n) < rsum (fun v => v) ws.
Proof.
  intros k name xs xt n ys yt ny ws ymin ymax title x1 x2 L H N W I1 I2 D.
  destruct (C86_histogram k name xs xt n ys yt ny ws None None ymin ymax title L (or_introl H))
    as (h & lo & hi & l & k' & E & _ & _ & X & DV & (lo0 & hi0 & LM & -> & ->) & F1 & F3 & _).
  assert (Wn : ws <> []) by (intros ->; destruct xs; [destruct I1|discriminate]).
  destruct DV as [(Q & _)|(_ & C)]; [congruence|].
  assert (IL : forall x, In x xs <-> In x l).
  { intros x. rewrite (C x). split.
    - intros I. apply In_nth_error in I. destruct I as (i & I).
      assert (Li : (i < List.length ws)%nat) by (rewrite H; apply nth_error_Some; congruence).
      apply nth_error_Some in Li. destruct (nth_error ws i) as [v|] eqn:V; [|congruence].
      exists v. split; [|apply W; eapply nth_error_In; eauto].
      clear - I V. revert ws i I V. induction xs as [|y xs IH]; intros ws i I V; [destruct i; discriminate|].
      destruct ws as [|u ws]; [destruct i; discriminate|]. destruct i as [|i]; cbn [nth_error] in *.
      + injection I as ->. injection V as ->. simpl. auto.
      + cbn [combine]. right. eauto.
    - intros (v & I & _). eapply in_combine_l; eauto. }
  assert (M : lo0 < hi0 /\ largest hi0 xs).
  { destruct LM as [(-> & _)|(p & q & (P1 & P2) & (Q1 & Q2) & LM)].
    - exfalso. apply IL in I1. destruct I1.
    - cbv zeta in LM. pose proof (P2 x1 (proj1 (IL x1) I1)). pose proof (Q2 x2 (proj1 (IL x2) I2)).
      assert (lo0 = p /\ hi0 = q) as [-> ->] by lra. split; [lra|]. split; [apply IL; auto|].
      intros x Hx. apply Q2, IL, Hx. }
  destruct M as [LH LG]. exists k', h, lo0, hi0. split; [exact E|]. split; [exact X|]. split; [exact LH|]. split; [exact LG|].
  assert (T : root_bin n lo0 hi0 hi0 = (n + 1)%Z).
  { unfold root_bin. destruct (Rlt_dec hi0 lo0); [lra|]. destruct (Rlt_dec hi0 hi0); [lra|reflexivity]. }
  split; [exact T|].
  destruct (C86_contents k name xs xt n ys yt ny ws None None ymin ymax title k' h lo0 hi0 xs ys L H N E X LH) as [_ TOT].
  rewrite <- TOT. set (f := bin_content n lo0 hi0 (xw (rh_fills h))).
  replace (Z.to_nat n + 2)%nat with (1 + (Z.to_nat n + 1))%nat by lia. rewrite !sum_bins_split.
  cbn [Z.of_nat Pos.of_succ_nat]. replace (0 + 1)%Z with 1%Z by lia. rewrite Z2Nat.id by lia.
  assert (NN : forall fs i, (forall p, In p fs -> 0 < snd p) -> 0 <= bin_content n lo0 hi0 fs i).
  { intros fs i P. unfold bin_content. induction fs as [|p fs IH]; cbn [rsum]; [lra|].
    pose proof (P p (or_introl eq_refl)). specialize (IH (fun q Hq => P q (or_intror Hq))). destruct (Z.eqb _ _); lra. }
  assert (WF : fill_weights xs ws = ws) by (unfold fill_weights; destruct ws; congruence).
  rewrite WF in F3.
  assert (CB : xw (rh_fills h) = combine xs ws).
  { rewrite <- F1, <- F3. unfold xw. clear. induction (rh_fills h) as [|g fs IH]; cbn [map combine]; congruence. }
  assert (PW : forall p, In p (xw (rh_fills h)) -> 0 < snd p).
  { rewrite CB. intros [x v] P. apply in_combine_r in P. apply W in P. cbn [snd]. lra. }
  assert (B0 : 0 <= sum_bins f 0 1) by (unfold sum_bins; cbn [seq rsum]; pose proof (NN (xw (rh_fills h)) (0 + Z.of_nat 0)%Z PW); fold f in H0; lra).
  assert (B1 : 0 < sum_bins f (1 + n) 1).
  { unfold sum_bins. cbn [seq rsum]. replace (1 + n + Z.of_nat 0)%Z with (n + 1)%Z by lia.
    unfold f. rewrite CB. rewrite CB in PW. destruct LG as [LG _]. apply IL, C in LG. destruct LG as (v & LG & _).
    clear - LG PW T NN. induction (combine xs ws) as [|[x u] r IH]; [destruct LG|]. unfold bin_content. cbn [rsum fst snd].
    fold (bin_content n lo0 hi0 r (n + 1)). pose proof (PW _ (or_introl eq_refl)) as P0. cbn [snd] in P0.
    assert (PR : forall p, In p r -> 0 < snd p) by (intros; apply PW; simpl; auto).
    destruct LG as [Q | LG].
    - injection Q as -> ->. rewrite T, Z.eqb_refl. pose proof (NN r (n + 1)%Z PR). lra.
    - specialize (IH LG PR). destruct (Z.eqb _ _); lra. }
  lra.
Qed.
Print Assumptions C86_top_refuted.

(** "A list of weights of another length is ignored" is refuted: if it is shorter, the values it weighs are filled twice,
    and appended to the list of the caller. *)
Theorem C86_short_weights_refuted :
  forall k name xs xt (n : Z) yt ny ws ymin ymax title x v,
    (List.length ws < List.length xs)%nat -> In (x, v) (combine xs ws) -> 1 / 1000000 < v ->
    exists k' h more,
      make_root_histogram k name xs xt (Some n) [] yt ny ws None None ymin ymax title = (k', inr (h, xs ++ more, [])) /\
      In x more /\ map e_x (rh_fills h) = xs ++ more /\ forall f, In f (rh_fills h) -> e_w f = 1.
Proof.
  intros k name xs xt n yt ny ws ymin ymax title x v L I V.
  destruct (C31_caller_list_refuted xs ws histo_margin L) as (lo & hi & more & E & M).
  unfold make_root_histogram. destruct (Nat.eqb_spec (List.length (@nil R)) (List.length xs)) as [Q|_].
  { cbn [List.length] in Q. lia. }
  rewrite E. cbn [of_cerr bins_arg]. eexists. eexists. exists more. split; [reflexivity|].
  split; [apply (M x v); auto|]. cbn [rh_fills]. unfold fills.
  destruct (Nat.eqb_spec (List.length ws) (List.length (xs ++ more))) as [Q|_]; [rewrite app_length in Q; lia|].
  split.
  - change e_x with (fun e : R * R * R => fst (fst e)). rewrite <- (map_map fst fst), combine_fst, combine_fst; auto.
    + rewrite map_length; auto.
    + rewrite combine_length, !map_length. lia.
  - intros f F. destruct f as [p u]. apply in_combine_r in F. apply in_map_iff in F. destruct F as (y & <- & _). reflexivity.
Qed.
Print Assumptions C86_short_weights_refuted.

(** ---- graphs ---- *)

(** C86.  make_root_graph with as many y as x values, at least one: the graph has the points (x, y), if asked for in
    ascending order of x, and points of one x in the order given.  Each axis covers its values with a tenth of their spread on
    either side (so no point is on the frame) unless the user gives limits. *)
Theorem C86_graph :
  forall k name xs xt ys yt (srt : bool) xmin xmax ymin ymax title,
    xs <> [] -> List.length xs = List.length ys ->
    exists h g k' xlo xhi ylo yhi,
      make_root_graph k name xs xt ys yt srt xmin xmax ymin ymax title = (k', inr (h, g)) /\
      (if srt then by_x (rg_points g) (combine xs ys) else rg_points g = combine xs ys) /\ rg_name g = name /\
      rh_2d h = true /\ rh_fills h = [] /\ rh_x h = (xlo, xhi) /\ rh_y h = (ylo, yhi) /\
      axis (1 / 10) xs xmin xmax xlo xhi /\ axis (1 / 10) ys ymin ymax ylo yhi /\
      (xmin = None -> forall x, In x xs -> xlo < x) /\ (xmax = None -> forall x, In x xs -> x < xhi) /\
      (ymin = None -> forall y, In y ys -> ylo < y) /\ (ymax = None -> forall y, In y ys -> y < yhi).
Proof.
  intros k name xs xt ys yt srt xmin xmax ymin ymax title NE L.
  assert (S1 : exists s, (if srt then sort_two xs ys else inr (xs, ys)) = inr (map fst s, map snd s) /\
                 (if srt then by_x s (combine xs ys) else s = combine xs ys) /\ Permutation s (combine xs ys)).
  { destruct srt.
    - destruct (sort_two_ok xs ys L) as (s & E & B). exists s. split; auto. split; auto. apply B.
    - exists (combine xs ys). rewrite combine_fst, combine_snd by auto. auto. }
  destruct S1 as (s & E & B & P).
  assert (IX : forall x, In x (map fst s) <-> In x xs).
  { intros x. rewrite (perm_in_map fst _ _ P x), combine_fst by auto. tauto. }
  assert (IY : forall x, In x (map snd s) <-> In x ys).
  { intros x. rewrite (perm_in_map snd _ _ P x), combine_snd by auto. tauto. }
  destruct (min_max_plain (map fst s) graph_margin xmin xmax) as (xlo & xhi & AX & EX).
  destruct (min_max_plain (map snd s) graph_margin ymin ymax) as (ylo & yhi & AY & EY).
  apply (axis_same _ _ _ _ _ _ _ IX) in AX. apply (axis_same _ _ _ _ _ _ _ IY) in AY.
  unfold make_root_graph. destruct (Nat.eqb_spec (List.length xs) 0) as [Q|_]; [destruct xs; [congruence|discriminate]|].
  rewrite L, Nat.eqb_refl. cbn [orb negb]. rewrite E, EX, EY. cbn [of_cerr].
  destruct (C86_histogram_2d k name [] xt 1000 1000 [] yt [] (Some xlo) (Some xhi) (Some ylo) (Some yhi) title eq_refl (or_intror eq_refl))
    as (h & a & b & l & c & d & m & k' & EH & H2 & _ & _ & HX & HY & _ & (a0 & b0 & _ & -> & ->) & _ & (c0 & d0 & _ & -> & ->) & FX & _).
  rewrite EH. eexists. eexists. eexists. exists xlo, xhi, ylo, yhi. split; [reflexivity|]. cbn [rg_points rg_name].
  rewrite combine_split. split; [exact B|]. split; [reflexivity|]. split; [exact H2|].
  split; [destruct (rh_fills h); [reflexivity|discriminate]|]. split; [exact HX|]. split; [exact HY|].
  split; [exact AX|]. split; [exact AY|].
  destruct AX as (x0 & x1 & LX & -> & ->). destruct AY as (y0 & y1 & LY & -> & ->).
  assert (GM : 0 < graph_margin) by (unfold graph_margin; lra).
  pose proof (limits_strict _ _ _ _ GM LX) as TX. pose proof (limits_strict _ _ _ _ GM LY) as TY.
  split; [intros -> x Hx; apply TX, Hx|]. split; [intros -> x Hx; apply TX, Hx|].
  split; [intros -> x Hx; apply TY, Hx|intros -> x Hx; apply TY, Hx].
Qed.
Print Assumptions C86_graph.

(** C86.  No points, or not as many x as y values: IndexError, and nothing is kept. *)
Theorem C86_graph_error :
  forall k name xs xt ys yt (srt : bool) xmin xmax ymin ymax title,
    xs = [] \/ List.length xs <> List.length ys ->
    make_root_graph k name xs xt ys yt srt xmin xmax ymin ymax title = (k, inl PIndexError).
Proof.
  intros k name xs xt ys yt srt xmin xmax ymin ymax title [-> | N]; unfold make_root_graph; [reflexivity|].
  destruct (Nat.eqb_spec (List.length xs) (List.length ys)); [congruence|]. rewrite orb_true_r. reflexivity.
Qed.
Print Assumptions C86_graph_error.

(** C86.  make_root_multigraph: one graph for each pair of lists, with the points in the order given; the axes cover the
    values of all of them.  If a list of x values is longer than its list of y values: IndexError, and no axes. *)
Theorem C86_multigraph :
  forall k name xss xt yss yt,
    (Forall2 (fun a b => List.length a = List.length b) xss yss ->
     exists h gs k' xlo xhi ylo yhi,
       make_root_multigraph k name xss xt yss yt = (k', inr (h, gs)) /\
       map rg_points gs = map (fun p => combine (fst p) (snd p)) (combine xss yss) /\
       rh_x h = (xlo, xhi) /\ rh_y h = (ylo, yhi) /\
       limits (1 / 10) (concat xss) xlo xhi /\ limits (1 / 10) (concat yss) ylo yhi /\
       forall g x y, In g gs -> In (x, y) (rg_points g) -> xlo < x < xhi /\ ylo < y < yhi) /\
    (forall i xs ys, nth_error xss i = Some xs -> nth_error yss i = Some ys -> (List.length ys < List.length xs)%nat ->
     snd (make_root_multigraph k name xss xt yss yt) = inl PIndexError /\
     k_hist (fst (make_root_multigraph k name xss xt yss yt)) = k_hist k).
Proof.
  intros k name xss xt yss yt. split.
  - intros F.
    destruct (min_max_plain (concat xss) graph_margin None None) as (xlo & xhi & (x0 & x1 & LX & -> & ->) & EX).
    destruct (min_max_plain (concat yss) graph_margin None None) as (ylo & yhi & (y0 & y1 & LY & -> & ->) & EY).
    destruct (multi_loop_ok xss k yss [] F) as (k1 & KC & KH & EL).
    unfold make_root_multigraph. rewrite EX, EY. cbn [of_cerr]. rewrite EL. cbn [app].
    eexists. eexists. eexists. exists x0, x1, y0, y1. split; [reflexivity|]. cbn [rh_x rh_y].
    split; [rewrite map_map; reflexivity|]. do 2 (split; [reflexivity|]). split; [exact LX|]. split; [exact LY|].
    assert (GM : 0 < graph_margin) by (unfold graph_margin; lra).
    intros g x y G P. apply in_map_iff in G. destruct G as ([a b] & <- & G). cbn [rg_points fst snd] in P.
    split; [apply (limits_strict _ _ _ _ GM LX)|apply (limits_strict _ _ _ _ GM LY)]; apply in_concat.
    + exists a. split; [eapply in_combine_l; eauto|]. eapply in_combine_l; eauto.
    + exists b. split; [eapply in_combine_r; eauto|]. eapply in_combine_r; eauto.
  - intros i xs ys HX HY SH.
    destruct (min_max_plain (concat xss) graph_margin None None) as (xlo & xhi & _ & EX).
    destruct (min_max_plain (concat yss) graph_margin None None) as (ylo & yhi & _ & EY).
    assert (G : forall xss k yss i acc, nth_error xss i = Some xs -> nth_error yss i = Some ys ->
                snd (multi_loop k xss yss acc) = inl PIndexError).
    { clear - SH. induction xss as [|a xr IH]; intros k yss i acc HX HY; [destruct i; discriminate|].
      destruct yss as [|b yr]; [destruct i; discriminate|]. cbn [multi_loop tl]. destruct i as [|i]; cbn [nth_error] in *.
      - injection HX as ->. injection HY as ->. rewrite points_of_short by auto. reflexivity.
      - destruct (points_of a b); [|reflexivity]. eapply IH; eauto. }
    specialize (G xss k yss i [] HX HY). unfold make_root_multigraph. rewrite EX, EY. cbn [of_cerr].
    destruct (multi_loop k xss yss []) as [k1 r] eqn:E. destruct (multi_loop_kept _ _ _ _ _ _ E) as [_ B].
    cbn [snd] in G. subst r. cbn [fst snd]. auto.
Qed.
Print Assumptions C86_multigraph.

(** ---- names and clear_root ---- *)

(** C86.  Whatever calls are made, the canvases that are kept have different names, and so do the histograms. *)
Theorem C86_names :
  forall calls, NoDup (k_canvas (rcalls calls)) /\ NoDup (map rh_name (k_hist (rcalls calls))).
Proof.
  intros calls. destruct (rcalls_names calls) as [A B]. split; [apply (numbered_nodup "-"%char)|apply (numbered_nodup " "%char)]; auto.
Qed.
Print Assumptions C86_names.

(** C86.  clear_root forgets all canvases and histograms. *)
Theorem C86_clear :
  forall calls, k_canvas (rcalls (calls ++ [RClear])) = [] /\ k_hist (rcalls (calls ++ [RClear])) = [].
Proof. intros calls. unfold rcalls. rewrite fold_left_app. split; reflexivity. Qed.
Print Assumptions C86_clear.

(** "clear_root frees the memory" is refuted: a graph once made is kept for ever. *)
Theorem C86_clear_refuted :
  forall g calls more, In g (k_graph (rcalls calls)) -> In g (k_graph (rcalls (calls ++ more))).
Proof.
  intros g calls more I. unfold rcalls in *. rewrite fold_left_app. revert I.
  generalize (fold_left rcall calls (mkKept [] [] [])). induction more as [|c more IH]; intros k I; cbn [fold_left]; auto.
  apply IH. destruct (rcall_grows k c) as [-> | [_ G]]; auto.
Qed.
Print Assumptions C86_clear_refuted.

(** ---- bunches ---- *)

Lemma points_1d_ok ex flag inv w fx b x ux val size :
  readings ex w (b_hits b) [x] val -> amplitude_axes x = None -> assoc units ux = Some size ->
  points_1d ex flag inv w fx b x ux = inr (map (fun l => val x l / size) (b_hits b)).
Proof.
  intros Rd A U. unfold points_1d.
  rewrite (C78_columns ex flag inv fx w b [x] [ux] val (fun _ => size)); auto.
  - cbn [of_merr List.length seq map nth]. apply numbers_map.
  - intros v [<- | []]. exact A.
  - right. split; [discriminate|]. intros i Hi. cbn [List.length] in Hi. assert (i = 0%nat) by lia. subst i. exists ux. auto.
Qed.

Lemma fill_weights_hits xs w hits : List.length xs = List.length hits ->
  fill_weights xs (map (hit_weight w) hits) = map (wt w) hits.
Proof.
  intros L. rewrite (map_ext _ _ (hit_weight_wt w)). unfold fill_weights. destruct hits; cbn [map]; auto.
  destruct xs; [reflexivity|discriminate].
Qed.

(** A number of bins: the one asked for, or the integer part of q. *)
Definition bins_for (asked : option Z) (q : R) (n : Z) : Prop :=
  match asked with Some z => n = z | None => IZR n <= q < IZR n + 1 end.
Lemma int_of_bins q : bins_for None q (int_of q).
Proof. unfold bins_for, int_of, Rfloor. pose proof (archimed q). rewrite minus_IZR. lra. Qed.

(** C86.  Bunch.root_histogram of one variable, for a bunch that is not empty: one call of Fill for each hit, in the order of
    the bunch, with the value in the unit asked for and the weight of the hit; together the weight of the bunch.  The number of
    bins is the one asked for, or a tenth of the number of hits, rounded down. *)
Theorem C86_bunch_histogram :
  forall ex flag inv (w : RWorld) k fx (b : Bunch) x ux uy nx ny canvas xmin xmax ymin ymax title draw val size,
    readings ex w (b_hits b) [x] val -> amplitude_axes x = None -> assoc units ux = Some size -> b_hits b <> [] ->
    exists k' c h lo hi l,
      root_histogram ex flag inv w k fx b x ux "" uy nx ny canvas xmin xmax ymin ymax title draw =
        (k', inr (c, (draw ++ match canvas with Some _ => "same" | None => "" end)%string, h)) /\
      (forall c0, canvas = Some c0 -> c = c0 /\ k_canvas k' = k_canvas k) /\ (canvas = None -> k_canvas k' = k_canvas k ++ [c]) /\
      rh_2d h = false /\ bins_for nx (INR (List.length (b_hits b)) / 10) (rh_nx h) /\
      map e_x (rh_fills h) = map (fun l => val x l / size) (b_hits b) /\
      map e_w (rh_fills h) = map (wt w) (b_hits b) /\
      rsum e_w (rh_fills h) = total_weight w (b_hits b) /\
      rh_x h = (lo, hi) /\ axis 0 l xmin xmax lo hi /\
      forall v, In v l <-> exists i, In i (b_hits b) /\ v = val x i / size /\ 1 / 1000000 < wt w i.
Proof.
  intros ex flag inv w k fx b x ux uy nx ny canvas xmin xmax ymin ymax title draw val size Rd A U NE.
  pose proof (points_1d_ok ex flag inv w fx b x ux val size Rd A U) as P.
  set (xs := map (fun l => val x l / size) (b_hits b)) in *.
  assert (LX : List.length xs = List.length (b_hits b)) by apply map_length.
  set (n := match nx with Some z => z | None => int_of (INR (List.length (b_hits b)) / 10) end).
  set (k1c := match canvas with Some c => (k, c) | None => make_root_canvas k x end).
  assert (N0 : List.length (@nil R) <> List.length xs).
  { rewrite LX. destruct (b_hits b); [congruence|discriminate]. }
  destruct (C86_histogram (fst k1c) x xs (x ++ unit_label ux "")%string n [] ("" ++ unit_label uy "")%string ny
              (map (hit_weight w) (b_hits b)) xmin xmax ymin ymax title N0)
    as (h & lo & hi & l & k' & E & H2 & HN & HX & DV & AX & F1 & F3 & KK & _).
  { left. rewrite map_length. auto. }
  rewrite fill_weights_hits in F3 by auto.
  exists k', (snd k1c), h, lo, hi, l. split.
  { unfold root_histogram. rewrite P. cbn [String.eqb negb andb].
    replace (match nx with Some z => Some z | None => Some (int_of (INR (List.length (b_hits b)) / 10)) end) with (Some n)
      by (unfold n; destruct nx; reflexivity).
    fold k1c. destruct k1c as [k1 c] eqn:EK. cbn [fst snd] in *. rewrite E.
    destruct canvas; [reflexivity|].
    assert (SA : forall s, (s ++ "")%string = s) by (induction s as [|a s IH]; cbn [String.append]; congruence). rewrite SA. reflexivity. }
  split. { intros c0 ->. subst k' k1c. split; reflexivity. }
  split. { intros ->. subst k' k1c. reflexivity. }
  split; [exact H2|]. split.
  { rewrite HN. unfold n. destruct nx; [reflexivity|apply int_of_bins]. }
  split; [exact F1|]. split; [exact F3|]. split.
  { unfold total_weight. transitivity (rsum (fun v => v) (map e_w (rh_fills h))).
    - generalize (rh_fills h). intros fs. induction fs as [|f fs IH]; cbn [map rsum]; congruence.
    - rewrite F3. generalize (b_hits b). intros fs. induction fs as [|f fs IH]; cbn [map rsum]; congruence. }
  split; [exact HX|]. split; [exact AX|].
  destruct DV as [(Q & _)|(_ & C)]; [destruct (b_hits b); [congruence|discriminate]|].
  intros v. rewrite (C v). unfold xs. rewrite (map_ext _ _ (hit_weight_wt w)).
  assert (CM : combine (map (fun i => val x i / size) (b_hits b)) (map (wt w) (b_hits b)) =
               map (fun i => (val x i / size, wt w i)) (b_hits b)).
  { generalize (b_hits b). intros fs. induction fs as [|f fs IH]; cbn [map combine]; congruence. }
  rewrite CM. split.
  - intros (u & I & W). apply in_map_iff in I. destruct I as (i & Q & I). injection Q as <- <-. eauto.
  - intros (i & I & -> & W). exists (wt w i). split; auto. apply in_map_iff. eauto.
Qed.
Print Assumptions C86_bunch_histogram.

(** C86.  Of two variables. *)
Theorem C86_bunch_histogram_2d :
  forall ex flag inv (w : RWorld) k fx (b : Bunch) x ux y uy nx ny canvas xmin xmax ymin ymax title val sx sy,
    y <> "" -> readings ex w (b_hits b) [x; y] val -> amplitude_axes x = None -> amplitude_axes y = None ->
    assoc units ux = Some sx -> assoc units uy = Some sy ->
    exists k' c h d,
      root_histogram ex flag inv w k fx b x ux y uy nx ny canvas xmin xmax ymin ymax title "" = (k', inr (c, d, h)) /\
      d = (match canvas with Some _ => "COLsame" | None => "COL" end) /\ rh_2d h = true /\
      bins_for nx (power (INR (List.length (b_hits b))) (7 / 10) / 10) (rh_nx h) /\
      bins_for ny (power (INR (List.length (b_hits b))) (7 / 10) / 10) (rh_ny h) /\
      map e_x (rh_fills h) = map (fun l => val x l / sx) (b_hits b) /\
      map e_y (rh_fills h) = map (fun l => val y l / sy) (b_hits b) /\
      map e_w (rh_fills h) = map (wt w) (b_hits b).
Proof.
  intros ex flag inv w k fx b x ux y uy nx ny canvas xmin xmax ymin ymax title val sx sy Ny Rd Ax Ay Ux Uy.
  assert (Rx : readings ex w (b_hits b) [x] val) by (intros v l [<- | []] Hl; apply Rd; simpl; auto).
  assert (Ry : readings ex w (b_hits b) [y] val) by (intros v l [<- | []] Hl; apply Rd; simpl; auto).
  pose proof (points_1d_ok ex flag inv w fx b x ux val sx Rx Ax Ux) as Px.
  pose proof (points_1d_ok ex flag inv w fx b y uy val sy Ry Ay Uy) as Py.
  set (q := power (INR (List.length (b_hits b))) (7 / 10) / 10).
  set (n := match nx with Some z => z | None => int_of q end). set (m := match ny with Some z => z | None => int_of q end).
  set (k1c := match canvas with Some c => (k, c) | None => make_root_canvas k (x ++ ":" ++ y)%string end).
  destruct (C86_histogram_2d (fst k1c) (x ++ ":" ++ y)%string (map (fun l => val x l / sx) (b_hits b)) (x ++ unit_label ux "")%string n m
              (map (fun l => val y l / sy) (b_hits b)) (y ++ unit_label uy "")%string
              (map (hit_weight w) (b_hits b)) xmin xmax ymin ymax title)
    as (h & a1 & a2 & a3 & a4 & a5 & a6 & k' & E & H2 & HN & HM & _ & _ & _ & _ & _ & _ & F1 & F2 & F3 & _).
  { rewrite !map_length. reflexivity. }
  { left. rewrite !map_length. reflexivity. }
  rewrite fill_weights_hits in F3 by apply map_length.
  exists k', (snd k1c), h. eexists. split; [|split; [reflexivity|]].
  - unfold root_histogram. rewrite Px. destruct (String.eqb_spec y "") as [Q|_]; [congruence|]. cbn [negb andb String.eqb].
    rewrite Py. fold q.
    replace (match nx with Some z => Some z | None => Some (int_of q) end) with (Some n) by (unfold n; destruct nx; reflexivity).
    replace (match ny with Some z => Some z | None => Some (int_of q) end) with (Some m) by (unfold m; destruct ny; reflexivity).
    fold k1c. destruct k1c as [k1 c]. cbn [fst snd] in *. rewrite E. destruct canvas; reflexivity.
  - split; [exact H2|]. split; [rewrite HN; unfold n; destruct nx; [reflexivity|apply int_of_bins]|].
    split; [rewrite HM; unfold m; destruct ny; [reflexivity|apply int_of_bins]|]. auto.
Qed.
Print Assumptions C86_bunch_histogram_2d.

(** "With a y axis the histogram is two dimensional" is refuted if a draw option is given: the y axis is ignored, and
    without a number of bins the call raises TypeError. *)
Theorem C86_draw_refuted :
  forall ex flag inv (w : RWorld) k fx (b : Bunch) x ux y uy nx ny canvas xmin xmax ymin ymax title draw val size,
    y <> "" -> draw <> "" ->
    readings ex w (b_hits b) [x] val -> amplitude_axes x = None -> assoc units ux = Some size -> b_hits b <> [] ->
    match nx with
    | None => snd (root_histogram ex flag inv w k fx b x ux y uy nx ny canvas xmin xmax ymin ymax title draw) = inl PTypeError
    | Some n => exists c d h,
        snd (root_histogram ex flag inv w k fx b x ux y uy nx ny canvas xmin xmax ymin ymax title draw) = inr (c, d, h) /\
        rh_2d h = false /\ map e_x (rh_fills h) = map (fun l => val x l / size) (b_hits b)
    end.
Proof.
  intros ex flag inv w k fx b x ux y uy nx ny canvas xmin xmax ymin ymax title draw val size Ny Nd Rd A U NE.
  pose proof (points_1d_ok ex flag inv w fx b x ux val size Rd A U) as P.
  set (xs := map (fun l => val x l / size) (b_hits b)) in *.
  assert (LX : List.length xs = List.length (b_hits b)) by apply map_length.
  assert (N0 : List.length (@nil R) <> List.length xs).
  { rewrite LX. destruct (b_hits b); [congruence|discriminate]. }
  assert (LW : List.length (map (hit_weight w) (b_hits b)) = List.length xs \/ map (hit_weight w) (b_hits b) = []) by (left; rewrite map_length; auto).
  unfold root_histogram. rewrite P. destruct (String.eqb_spec y "") as [Q|_]; [congruence|].
  destruct (String.eqb_spec draw "") as [Q|_]; [congruence|]. cbn [negb andb].
  set (k1c := match canvas with Some c => (k, c) | None => make_root_canvas k (x ++ ":" ++ y)%string end).
  destruct k1c as [k1 c]. destruct nx as [n|].
  - destruct (C86_histogram k1 (x ++ ":" ++ y)%string xs (x ++ unit_label ux "")%string n [] (y ++ unit_label uy "")%string ny
              (map (hit_weight w) (b_hits b)) xmin xmax ymin ymax title N0 LW)
      as (h & lo & hi & l & k' & E & H2 & _ & _ & _ & _ & F1 & _).
    rewrite E. cbn [snd]. eauto 10.
  - unfold make_root_histogram. destruct (Nat.eqb_spec (List.length (@nil R)) (List.length xs)) as [Q|_]; [congruence|].
    destruct (min_max_axis xs (map (hit_weight w) (b_hits b)) histo_margin xmin xmax LW) as (l & lo & hi & _ & _ & _ & E).
    rewrite E. reflexivity.
Qed.
Print Assumptions C86_draw_refuted.

(** "An empty bunch gives an empty histogram" is refuted: without a y axis the call raises TypeError, as the two
    empty lists of values make it two dimensional. *)
Theorem C86_empty_refuted :
  forall ex flag inv (w : RWorld) k fx (b : Bunch) x ux uy nx canvas xmin xmax ymin ymax title draw,
    b_hits b = [] -> amplitude_axes x = None ->
    snd (root_histogram ex flag inv w k fx b x ux "" uy nx None canvas xmin xmax ymin ymax title draw) = inl PTypeError.
Proof.
  intros ex flag inv w k fx b x ux uy nx canvas xmin xmax ymin ymax title draw E A.
  unfold root_histogram, points_1d, list_get_hit_variable, column_of. cbn [List.length seq map nth]. rewrite A, E.
  cbn [bindE map all_inr of_merr nth]. unfold numbers. cbn [all_opt List.length String.eqb negb andb].
  destruct (match canvas with Some c => (k, c) | None => make_root_canvas k x end) as [k1 c].
  unfold make_root_histogram. cbn [List.length Nat.eqb].
  destruct (min_max_plain [] histo_margin xmin xmax) as (xl & xh & _ & ->).
  destruct (min_max_plain [] histo_margin ymin ymax) as (yl & yh & _ & ->). cbn [of_cerr bins_arg].
  destruct nx; reflexivity.
Qed.
Print Assumptions C86_empty_refuted.

(** The hits of a scatter plot: all, or those with a weight that is not 0 (up to 1e-9; it may be negative). *)
Definition shown (w : RWorld) (weightless : bool) (hits : list nat) : list nat :=
  filter (fun l => if weightless then true else if Rlt_dec (1 / 1000000000) (Rabs (wt w l)) then true else false) hits.

Lemma scatter_points_ok ex flag inv w fx b x ux y uy weightless val sx sy :
  readings ex w (b_hits b) [x; y] val -> amplitude_axes x = None -> amplitude_axes y = None ->
  assoc units ux = Some sx -> assoc units uy = Some sy ->
  scatter_points ex flag inv w fx b x ux y uy weightless =
    inr (map (fun l => val x l / sx) (shown w weightless (b_hits b)), map (fun l => val y l / sy) (shown w weightless (b_hits b))).
Proof.
  intros Rd Ax Ay Ux Uy. unfold scatter_points.
  replace (filter _ (b_hits b)) with (shown w weightless (b_hits b)).
  2: { unfold shown. apply filter_ext. intros l. generalize (hit_weight_wt w l). generalize (hit_weight w l). intros ? ->. unfold rltb, float_tolerance.
       destruct (Rlt_dec _ _), weightless; reflexivity. }
  rewrite (QueryProofs.all_inr_map _ (fun l => (Some (val x l / sx), Some (val y l / sy)))).
  - cbn [of_merr]. rewrite !map_map. cbn [fst snd]. rewrite !numbers_map. reflexivity.
  - intros l Hl. apply filter_In in Hl. destruct Hl as [Hl _].
    assert (V : forall z uz sz, In z [x; y] -> amplitude_axes z = None -> assoc units uz = Some sz ->
                value_of_hit ex flag inv w fx b z uz l = inr (Some (val z l / sz))).
    { intros z uz sz Iz Az Uz. unfold value_of_hit, hit_variable. rewrite Az. destruct (Rd z l Iz Hl) as (v & G & Nv & V).
      rewrite G. assert (An : as_num v = Some (real_of v)) by (destruct v; [reflexivity|reflexivity|congruence]).
      rewrite An, V. cbn [bindE in_unit]. rewrite Uz. pose proof (unit_positive _ _ Uz). unfold divE.
      destruct (Req_EM_T sz 0); [lra|]. reflexivity. }
    rewrite (V x ux sx), (V y uy sy) by (simpl; auto). reflexivity.
Qed.

(** make_root_graph makes no canvas. *)
Lemma graph_canvas k name xs xt ys yt srt xmin xmax ymin ymax title :
  k_canvas (fst (make_root_graph k name xs xt ys yt srt xmin xmax ymin ymax title)) = k_canvas k.
Proof.
  unfold make_root_graph.
  destruct (_ || _)%bool; [reflexivity|]. destruct (if srt then _ else _) as [e|[xs' ys']]; [reflexivity|].
  destruct (of_cerr _) as [e|[[xl xh] ?]]; [reflexivity|]. destruct (of_cerr _) as [e|[[yl yh] ?]]; [reflexivity|].
  match goal with |- context [make_root_histogram ?a1 ?a2 ?a3 ?a4 ?a5 ?a6 ?a7 ?a8 ?a9 ?b1 ?b2 ?b3 ?b4 ?b5] =>
    destruct (make_root_histogram a1 a2 a3 a4 a5 a6 a7 a8 a9 b1 b2 b3 b4 b5) as [k' r] eqn:E end.
  destruct (hist_kept _ _ _ _ _ _ _ _ _ _ _ _ _ _ _ _ E) as [(e & -> & ->) | (h & a & b & -> & -> & _)]; reflexivity.
Qed.

(** C86.  Bunch.root_scatter_graph: one point for each hit (without those of weight 0 if they are not asked for), in the units
    asked for, inside the axes; if there is no such hit, IndexError.  New axes are drawn on a new canvas only. *)
Theorem C86_scatter :
  forall ex flag inv (w : RWorld) k fx (b : Bunch) x y ux uy weightless canvas xmin xmax ymin ymax title val sx sy,
    readings ex w (b_hits b) [x; y] val -> amplitude_axes x = None -> amplitude_axes y = None ->
    assoc units ux = Some sx -> assoc units uy = Some sy ->
    let r := root_scatter_graph ex flag inv w k fx b x y ux uy weightless canvas xmin xmax ymin ymax title in
    let point := fun l => (val x l / sx, val y l / sy) in
    (shown w weightless (b_hits b) = [] -> r = (k, inl PIndexError)) /\
    (shown w weightless (b_hits b) <> [] ->
     exists c axes h g,
       snd r = inr (c, axes, h, g) /\
       match canvas with Some c0 => axes = false /\ c = c0 | None => axes = true /\ k_canvas (fst r) = k_canvas k ++ [c] end /\
       by_x (rg_points g) (map point (shown w weightless (b_hits b))) /\
       exists xlo xhi ylo yhi, rh_x h = (xlo, xhi) /\ rh_y h = (ylo, yhi) /\
         axis (1 / 10) (map (fun l => val x l / sx) (shown w weightless (b_hits b))) xmin xmax xlo xhi /\
         axis (1 / 10) (map (fun l => val y l / sy) (shown w weightless (b_hits b))) ymin ymax ylo yhi).
Proof.
  intros ex flag inv w k fx b x y ux uy weightless canvas xmin xmax ymin ymax title val sx sy Rd Ax Ay Ux Uy. cbv zeta.
  unfold root_scatter_graph. rewrite (scatter_points_ok ex flag inv w fx b x ux y uy weightless val sx sy Rd Ax Ay Ux Uy).
  set (sel := shown w weightless (b_hits b)). split.
  - intros ->. rewrite C86_graph_error by (left; reflexivity). reflexivity.
  - intros NE.
    destruct (C86_graph k (x ++ ":" ++ y)%string (map (fun l => val x l / sx) sel) (x ++ unit_label ux "")%string (map (fun l => val y l / sy) sel)
      (y ++ unit_label uy "")%string true xmin xmax ymin ymax title) as (h & g & k' & xlo & xhi & ylo & yhi & E & B & _ & _ & _ & HX & HY & AX & AY & _).
    { destruct sel; [congruence|discriminate]. }
    { rewrite !map_length. reflexivity. }
    pose proof (graph_canvas k (x ++ ":" ++ y)%string (map (fun l => val x l / sx) sel) (x ++ unit_label ux "")%string (map (fun l => val y l / sy) sel)
      (y ++ unit_label uy "")%string true xmin xmax ymin ymax title) as CK0. rewrite E in CK0. cbn [fst] in CK0.
    rewrite E. cbv iota in B.
    assert (CM : combine (map (fun l => val x l / sx) sel) (map (fun l => val y l / sy) sel) = map (fun l => (val x l / sx, val y l / sy)) sel).
    { clear. induction sel as [|f fs IH]; cbn [map combine]; congruence. }
    rewrite CM in B.
    destruct canvas as [c|].
    + exists c, false, h, g. split; [reflexivity|]. split; [auto|]. split; [exact B|]. exists xlo, xhi, ylo, yhi. auto.
    + eexists. exists true, h, g. split; [reflexivity|]. split; [split; [reflexivity|cbn [make_root_canvas fst k_canvas]; rewrite CK0; reflexivity]|]. split; [exact B|]. exists xlo, xhi, ylo, yhi. auto.
Qed.
Print Assumptions C86_scatter.

(** "Hits with weight <= 0 are plotted only if asked for" (bunch 1639) is refuted: one of negative weight always is. *)
Theorem C86_weightless_refuted :
  forall (w : RWorld) hits l weightless, In l hits -> wt w l < - (1 / 1000000000) -> In l (shown w weightless hits).
Proof.
  intros w hits l weightless I W. apply filter_In. split; auto. destruct weightless; auto.
  destruct (Rlt_dec _ _) as [_|N]; auto. exfalso. apply N. rewrite Rabs_left; lra.
Qed.
Print Assumptions C86_weightless_refuted.

(** A bunch has a value of a quantity in a unit of the given size; or the query raises. *)
Definition bunch_value ex flag (w : RWorld) (name : string) (vars : list string) (size : R) (fb : Fixed RNum * Bunch) (v : R) : Prop :=
  exists q, bunch_get ex flag (fst fb) w (snd fb) name vars = inr (Some q) /\ v = q / size.
Definition bunch_fails ex flag (w : RWorld) (name : string) (vars : list string) (fb : Fixed RNum * Bunch) : Prop :=
  exists e, bunch_get ex flag (fst fb) w (snd fb) name vars = inl e.

Lemma value_of_bunch_ok ex flag w name vars u size fb v : assoc units u = Some size ->
  bunch_value ex flag w name vars size fb v -> value_of_bunch ex flag w fb name vars u = inr (Some v).
Proof.
  intros U (q & G & ->). unfold value_of_bunch. rewrite G. cbn [bindE in_unit]. rewrite U.
  pose proof (unit_positive _ _ U). unfold divE. destruct (Req_EM_T size 0); [lra|]. reflexivity.
Qed.
Lemma point_of_bunch_fails ex flag w fb x xv ux y yv uy :
  bunch_fails ex flag w x xv fb \/ bunch_fails ex flag w y yv fb -> exists e, point_of_bunch ex flag w fb x xv ux y yv uy = inl e.
Proof.
  unfold point_of_bunch, value_of_bunch. intros [(e & G)|(e & G)].
  - rewrite G. cbn [bindE]. eauto.
  - rewrite G. destruct (bindE (bunch_get _ _ _ _ _ x xv) _) as [e1|v]; cbn [bindE]; eauto.
Qed.

(** C86.  Bunch.root_graph: one point for each bunch that has both quantities; bunches for which a quantity raises are left
    out.  The points are in ascending order of x.  If no bunch has both, IndexError. *)
Theorem C86_bunch_graph :
  forall ex flag (w : RWorld) k bs x xv y yv ux uy canvas xmin xmax ymin ymax title sx sy
         (point : Fixed RNum * Bunch -> option (R * R)),
    assoc units ux = Some sx -> assoc units uy = Some sy ->
    (forall fb, In fb bs ->
       match point fb with
       | Some (a, c) => bunch_value ex flag w x xv sx fb a /\ bunch_value ex flag w y yv sy fb c
       | None => bunch_fails ex flag w x xv fb \/ bunch_fails ex flag w y yv fb
       end) ->
    let r := root_graph ex flag w k bs x xv y yv ux uy canvas false xmin xmax ymin ymax title in
    ((forall fb, In fb bs -> point fb = None) -> r = (k, inl PIndexError)) /\
    ((exists fb, In fb bs /\ point fb <> None) ->
     exists c axes h g ps,
       snd r = inr (c, axes, h, g) /\
       match canvas with Some c0 => axes = false /\ c = c0 | None => axes = true /\ k_canvas (fst r) = k_canvas k ++ [c] end /\
       map Some ps = filter (fun o => match o with Some _ => true | None => false end) (map point bs) /\
       by_x (rg_points g) ps /\
       exists xlo xhi ylo yhi, rh_x h = (xlo, xhi) /\ rh_y h = (ylo, yhi) /\
         axis (1 / 10) (map fst ps) xmin xmax xlo xhi /\ axis (1 / 10) (map snd ps) ymin ymax ylo yhi).
Proof.
  intros ex flag w k bs x xv y yv ux uy canvas xmin xmax ymin ymax title sx sy point Ux Uy H. cbv zeta.
  assert (G : exists ps, graph_points ex flag w bs x xv ux y yv uy = map (fun p => (Some (fst p), Some (snd p))) ps /\
                map Some ps = filter (fun o => match o with Some _ => true | None => false end) (map point bs)).
  { clear - Ux Uy H. induction bs as [|fb bs IH]; [exists []; auto|].
    destruct IH as (ps & E & F). { intros f Hf. apply H. simpl. auto. }
    specialize (H fb (or_introl eq_refl)). cbn [graph_points map filter].
    destruct (point fb) as [[a c]|].
    - destruct H as [Ha Hc]. unfold point_of_bunch.
      rewrite (value_of_bunch_ok _ _ _ _ _ _ _ _ _ Ux Ha), (value_of_bunch_ok _ _ _ _ _ _ _ _ _ Uy Hc). cbn [bindE].
      exists ((a, c) :: ps). cbn [map fst snd]. split; congruence.
    - destruct (point_of_bunch_fails ex flag w fb x xv ux y yv uy H) as (e & ->). exists ps. auto. }
  destruct G as (ps & E & F). unfold root_graph. rewrite E, !map_map. cbn [fst snd].
  rewrite (numbers_map (@fst R R)), (numbers_map (@snd R R)). split.
  - intros Nn. assert (Z : filter (fun o => match o with Some _ => true | None => false end) (map point bs) = []).
    { clear - Nn. induction bs as [|fb bs IH]; cbn [map filter]; auto. rewrite Nn by (simpl; auto). apply IH. intros; apply Nn; simpl; auto. }
    rewrite Z in F. destruct ps; [|discriminate]. cbn [map]. rewrite C86_graph_error by (left; reflexivity). reflexivity.
  - intros (fb & Hfb & Np).
    assert (NE : ps <> []).
    { intros ->. cbn [map] in F. destruct (point fb) as [p|] eqn:P; [|congruence].
      assert (I : In (Some p) (filter (fun o => match o with Some _ => true | None => false end) (map point bs))).
      { apply filter_In. split; auto. apply in_map_iff. eauto. }
      rewrite <- F in I. destruct I. }
    match goal with |- context [make_root_graph k ?n ?a ?b ?c ?d true ?e ?f ?g ?h ?i] =>
      destruct (C86_graph k n a b c d true e f g h i) as (hh & gg & k' & xlo & xhi & ylo & yhi & E2 & B & _ & _ & _ & HX & HY & AX & AY & _) end.
    { destruct ps; [congruence|discriminate]. }
    { rewrite !map_length. reflexivity. }
    match type of E2 with ?t = _ => assert (CK0 : k_canvas (fst t) = k_canvas k) by apply graph_canvas end.
    rewrite E2 in CK0. cbn [fst] in CK0.
    rewrite E2. cbv iota in B. rewrite combine_split in B.
    destruct canvas as [c|].
    + exists c, false, hh, gg, ps. split; [reflexivity|]. split; [auto|]. split; [exact F|]. split; [exact B|]. exists xlo, xhi, ylo, yhi. auto.
    + eexists. exists true, hh, gg, ps. split; [reflexivity|]. split; [split; [reflexivity|cbn [make_root_canvas fst k_canvas]; rewrite CK0; reflexivity]|]. split; [exact F|]. split; [exact B|]. exists xlo, xhi, ylo, yhi. auto.
Qed.
Print Assumptions C86_bunch_graph.


(** ---- cases ---- *)

Lemma least_unique a a' l : least a l -> least a' l -> a = a'.
Proof. intros [I L] [I' L']. apply Rle_antisym; auto. Qed.
Lemma largest_unique a a' l : largest a l -> largest a' l -> a = a'.
Proof. intros [I L] [I' L']. apply Rle_antisym; auto. Qed.
Lemma axis_known m l xmin xmax lo hi a b : least a l -> largest b l -> 1 / 1000000000 <= b - a + 2 * (m * (b - a)) ->
  axis m l xmin xmax lo hi ->
  lo = match xmin with Some x => x | None => a - m * (b - a) end /\ hi = match xmax with Some x => x | None => b + m * (b - a) end.
Proof.
  intros A B W (lo0 & hi0 & [[-> _] | (a' & b' & A' & B' & H)] & -> & ->).
  - destruct A as [[] _].
  - rewrite <- (least_unique a a' l A A'), <- (largest_unique b b' l B B') in H. cbv zeta in H.
    destruct H as [(_ & -> & ->)|(N & _)]; [auto|lra].
Qed.
Lemma by_x_two p q l : fst q < fst p -> by_x l [p; q] -> l = [q; p].
Proof.
  intros L (P & S0 & _). apply Permutation_sym in P. apply Permutation_length_2_inv in P. destruct P as [-> | ->]; auto.
  inversion S0 as [|? ? ? F]; subst. inversion F; subst. lra.
Qed.

(** Three values of weights 1, 2 and 1 in three bins: the axis is 0 to 3 and the bins hold 1, 2 and 0; the last value is above. *)
Example C86_histogram_ex :
  exists k h, make_root_histogram (mkKept [] [] []) "a" [0; 1; 3] "x" (Some 3%Z) [] "" None [1; 2; 1] None None None None "t" =
    (k, inr (h, [0; 1; 3], [])) /\ rh_x h = (0, 3) /\ rh_name h = "a 0" /\ k_hist k = [h] /\
    map (bin_content 3 0 3 (xw (rh_fills h))) [0; 1; 2; 3; 4]%Z = [0; 1; 2; 0; 1].
Proof.
  destruct (C86_histogram (mkKept [] [] []) "a" [0; 1; 3] "x" 3%Z [] "" None [1; 2; 1] None None None None "t") as
    (h & lo & hi & l & k & E & _ & _ & X & D & A & F & G & K & _); [discriminate|left; reflexivity|].
  exists k, h.
  assert (NM : rh_name h = "a 0").
  { revert E. unfold make_root_histogram. cbn [List.length Nat.eqb].
    destruct (of_cerr (min_max _ _ _ _ _)) as [?|[[? ?] ?]]; cbn [bins_arg];
      intros Q; try discriminate Q. apply (f_equal (fun r => match snd r with inr (x, _, _) => rh_name x | inl _ => "" end)) in Q.
    cbn [snd rh_name] in Q. symmetry. exact Q. }
  assert (FS : xw (rh_fills h) = [(0, 1); (1, 2); (3, 1)]).
  { revert F G. unfold xw. destruct (rh_fills h) as [|[[? ?] ?] [|[[? ?] ?] [|[[? ?] ?] [|? ?]]]]; try discriminate.
    cbn. intros F G. injection F as -> -> ->. injection G as -> -> ->. reflexivity. }
  assert (LU : lo = 0 /\ hi = 3).
  { assert (LI : forall v, In v l <-> In v [0; 1; 3]).
    { destruct D as [[C _] | [_ D]]; [discriminate|]. intros v. rewrite (D v). cbn [In combine]. split.
      - intros (u & [Q|[Q|[Q|[]]]] & _); injection Q as <- _; auto.
      - intros [<-|[<-|[<-|[]]]]; eexists; (split; [|]); [left; reflexivity|lra|right; left; reflexivity|lra|right; right; left; reflexivity|lra]. }
    destruct (axis_known 0 l None None lo hi 0 3) as [P1 P2]; auto; try lra.
    - split; [apply LI; cbn; auto|]. intros v I. apply LI in I. destruct I as [<-|[<-|[<-|[]]]]; lra.
    - split; [apply LI; cbn; auto|]. intros v I. apply LI in I. destruct I as [<-|[<-|[<-|[]]]]; lra. }
  destruct LU as [-> ->].
  split; [exact E|]. split; [exact X|]. split; [exact NM|]. split; [rewrite K; reflexivity|].
  assert (B0 : root_bin 3 0 3 0 = 1%Z) by (apply root_bin_in; try lia; try lra; rewrite minus_IZR; lra).
  assert (B1 : root_bin 3 0 3 1 = 2%Z) by (apply root_bin_in; try lia; try lra; rewrite minus_IZR; lra).
  assert (B3 : root_bin 3 0 3 3 = 4%Z) by (unfold root_bin; destruct (Rlt_dec 3 0); [lra|]; destruct (Rlt_dec 3 3); [lra|reflexivity]).
  rewrite FS. unfold bin_content. cbn [map rsum fst snd]. rewrite B0, B1, B3. cbn [Z.eqb Pos.eqb].
  repeat (f_equal; try lra).
Qed.

(** Two points out of order. *)
Example C86_graph_ex :
  exists k h g, make_root_graph (mkKept [] [] []) "a" [3; 1] "x" [5; 7] "y" true None None (Some 0) None "t" = (k, inr (h, g)) /\
    rg_points g = [(1, 7); (3, 5)] /\ rh_x h = (4 / 5, 16 / 5) /\ rh_y h = (0, 36 / 5).
Proof.
  destruct (C86_graph (mkKept [] [] []) "a" [3; 1] "x" [5; 7] "y" true None None (Some 0) None "t") as
    (h & g & k & xlo & xhi & ylo & yhi & E & B & _ & _ & _ & X & Y & AX & AY & _); [discriminate|reflexivity|].
  exists k, h, g. split; [exact E|]. split; [apply by_x_two in B; [exact B|cbn; lra]|].
  rewrite X, Y. split.
  - destruct (axis_known (1 / 10) [3; 1] None None xlo xhi 1 3) as [-> ->]; auto; try lra.
    + split; [cbn; auto|]. intros v [<-|[<-|[]]]; lra.
    + split; [cbn; auto|]. intros v [<-|[<-|[]]]; lra.
    + f_equal; lra.
  - destruct (axis_known (1 / 10) [5; 7] (Some 0) None ylo yhi 5 7) as [-> ->]; auto; try lra.
    + split; [cbn; auto|]. intros v [<-|[<-|[]]]; lra.
    + split; [cbn; auto|]. intros v [<-|[<-|[]]]; lra.
    + f_equal; lra.
Qed.

(** A history with two equal names, a scatter plot and a clear. *)
Example C86_names_ex :
  k_canvas (rcalls [RCanvas "a"; RCanvas "a"]) = ["a-0"; "a-1"] /\
  map rh_name (k_hist (rcalls [RHist "h" [1] "" (Some 2%Z) [1] "" (Some 2%Z) [] (Some 0) (Some 2) (Some 0) (Some 2) "";
     RHist "h" [1] "" (Some 2%Z) [1] "" (Some 2%Z) [] (Some 0) (Some 2) (Some 0) (Some 2) ""])) = ["h 0"; "h 1"].
Proof.
  split; [reflexivity|]. unfold rcalls. cbn [fold_left rcall]. unfold make_root_histogram. cbn [List.length Nat.eqb].
  destruct (min_max_plain [1] histo_margin (Some 0) (Some 2)) as (xl & xh & _ & ->). reflexivity.
Qed.

(** The bunch of two hits, x in cm: 0 bins by default, as 2/10 is rounded down. *)
Example C86_bunch_ex :
  exists k c h,
    root_histogram no_extra false (fun _ => None) (wrun ex_two) (mkKept [] [] []) no_fixed ex_bunch "x" "cm" "" "" None None None None None None None "" "" =
      (k, inr (c, "", h)) /\ k_canvas k = [c] /\ rh_nx h = 0%Z /\ rsum e_w (rh_fills h) = 2 /\
      map e_x (rh_fills h) = [4 / 10; - 4 / 10] /\ rh_x h = (- 4 / 10, 4 / 10).
Proof.
  assert (Rd : readings no_extra (wrun ex_two) (b_hits ex_bunch) ["x"] (stored_val (wrun ex_two))).
  { intros v l [<-|[]] L. apply ex_two_readings; auto. left; auto. }
  destruct (C86_bunch_histogram no_extra false (fun _ => None) (wrun ex_two) (mkKept [] [] []) no_fixed ex_bunch "x" "cm" "" None None None None None None None "" ""
    (stored_val (wrun ex_two)) 10 Rd eq_refl) as (k & c & h & lo & hi & l & E & _ & K & _ & N & F & W & T & X & A & I).
  { cbn. f_equal; try lra. } { discriminate. }
  assert (VX : map (fun l0 => stored_val (wrun ex_two) "x" l0 / 10) (b_hits ex_bunch) = [4 / 10; - 4 / 10]).
  { cbn [b_hits ex_bunch append bunch_new app map]. unfold stored_val. rewrite ex_two_x0, ex_two_x1. reflexivity. }
  rewrite VX in F.
  exists k, c, h. split; [exact E|].
  split; [exact (K eq_refl)|]. split.
  { cbn in N. destruct N as [N1 N2]. assert (-1 < rh_nx h < 1)%Z by (split; apply lt_IZR; lra). lia. }
  rewrite T, ex_two_total. split; [reflexivity|]. split; [exact F|]. rewrite X.
  assert (LI : forall v, In v l <-> In v [4 / 10; - 4 / 10]).
  { intros v. rewrite I, <- VX. split.
    - intros (i & Hi & -> & _). apply in_map_iff. eauto.
    - intros Q. apply in_map_iff in Q. destruct Q as (i & <- & Hi). exists i. split; auto. split; auto.
      destruct Hi as [<-|[<-|[]]]; [rewrite ex_two_w0|rewrite ex_two_w1]; lra. }
  destruct (axis_known 0 l None None lo hi (-4 / 10) (4 / 10)) as [-> ->]; auto; try lra.
  - split; [apply LI; cbn; auto|]. intros v Q. apply LI in Q. destruct Q as [<-|[<-|[]]]; lra.
  - split; [apply LI; cbn; auto|]. intros v Q. apply LI in Q. destruct Q as [<-|[<-|[]]]; lra.
  - f_equal; lra.
Qed.

(** Its scatter plot in mm: two points, in order of x. *)
Example C86_scatter_ex :
  exists c axes h g,
    snd (root_scatter_graph no_extra false (fun _ => None) (wrun ex_two) (mkKept [] [] []) no_fixed ex_bunch "x" "y" "mm" "mm" false None None None None None "") =
      inr (c, axes, h, g) /\ axes = true /\ rg_points g = [(-4, 3); (4, 1)].
Proof.
  destruct (C86_scatter no_extra false (fun _ => None) (wrun ex_two) (mkKept [] [] []) no_fixed ex_bunch "x" "y" "mm" "mm" false None None None None None ""
    (stored_val (wrun ex_two)) 1 1 (ex_two_readings no_extra) eq_refl eq_refl) as [_ H].
  { cbn. f_equal; try lra. } { cbn. f_equal; try lra. }
  assert (SH : shown (wrun ex_two) false (b_hits ex_bunch) = b_hits ex_bunch).
  { unfold shown. cbn [b_hits ex_bunch append bunch_new app filter]. rewrite ex_two_w0, ex_two_w1, Rabs_R1.
    destruct (Rlt_dec _ 1); [reflexivity|lra]. }
  rewrite SH in H. destruct H as (c & axes & h & g & E & A & B & _); [discriminate|].
  exists c, axes, h, g. split; [exact E|]. split; [apply A|].
  cbn [b_hits ex_bunch append bunch_new app map] in B. unfold stored_val in B. rewrite ex_two_x0, ex_two_x1, ex_two_y0, ex_two_y1 in B. cbn [real_of] in B.
  apply by_x_two in B; [|cbn; lra]. rewrite B. repeat (f_equal; try lra).
Qed.

(** A graph of mean x against total weight for this bunch and an empty one: the empty one has no mean and is left out. *)
Example C86_bunch_graph_ex :
  exists c axes h g,
    snd (root_graph no_extra false (wrun ex_two) (mkKept [] [] []) [(no_fixed, bunch_new); (no_fixed, ex_bunch)] "mean" ["x"] "bunch_weight" [] "mm" ""
      (Some "c") false None None None None "") = inr (c, axes, h, g) /\ c = "c" /\ axes = false /\ rg_points g = [(0, 2)].
Proof.
  assert (U : usable (wrun ex_two) ex_bunch) by exact ex_two_usable.
  destruct (C78_get_moments no_extra false (wrun ex_two) ex_bunch "x" [] (stored_val (wrun ex_two)) U) as (M & _ & _ & W).
  { intros v l [<-|[]] L. apply ex_two_readings; auto. left; auto. }
  rewrite ex_two_average in M. unfold stored_val in M. rewrite ex_two_x0, ex_two_x1 in M. cbn [real_of] in M.
  specialize (W []). rewrite ex_two_total in W.
  destruct (C86_bunch_graph no_extra false (wrun ex_two) (mkKept [] [] []) [(no_fixed, bunch_new); (no_fixed, ex_bunch)] "mean" ["x"] "bunch_weight" []
    "mm" "" (Some "c") None None None None "" 1 1
    (fun fb => match b_hits (snd fb) with [] => None | _ => Some (0, 2) end)) as [_ H].
  { cbn. f_equal; try lra. } { cbn. f_equal; try lra. }
  { intros fb [<-|[<-|[]]].
    - left. exists MZeroDivision. unfold bunch_get. cbn [String.eqb Ascii.eqb Bool.eqb first_of bindE fst snd].
      assert (Z : Rabs (total_weight (wrun ex_two) (b_hits bunch_new)) < 1 / 1000000000)
        by (unfold total_weight; cbn [b_hits bunch_new rsum]; rewrite Rabs_R0; lra).
      destruct (C22_zero_weight_raises no_extra no_fixed (wrun ex_two) bunch_new ["x"] [] (fun l (F : In l []) => match F with end) Z) as [_ Mz].
      rewrite (Mz "x" [] eq_refl eq_refl). reflexivity.
    - split; [exists ((4 + -4) / 2)|exists 2]; (split; [first [exact M|exact W]|lra]). }
  destruct H as (c & axes & h & g & ps & E & A & P & B & _).
  { exists (no_fixed, ex_bunch). split; [simpl; auto|discriminate]. }
  assert (PS : ps = [(0, 2)]).
  { cbn in P. destruct ps as [|p [|q ps]]; cbn in P; try discriminate. congruence. }
  exists c, axes, h, g. destruct A as [-> ->]. split; [exact E|]. split; [reflexivity|]. split; [reflexivity|].
  destruct B as (B & _). rewrite PS in B. apply Permutation_sym, Permutation_length_1_inv in B. exact B.
Qed.
