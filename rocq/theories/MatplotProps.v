(** Property C87: plots with matplotlib. *)
From Coq Require Import Reals ZArith Lia Lra String List Bool Permutation Sorted Ascii.
From Verif Require Import Num WeightModel HitcoreModel HitcoreSpec PyLibModel PyLibProofs BunchModel BunchSpec BunchProps HitPyModel
  MomentModel MomentSpec MomentProofs StatProofs BunchNumModel HitPySpec CommonModel CommonSpec CommonProofs EllipseModel EllipseSpec
  TwissProofs TableModel QueryModel QueryProofs MomentProps QueryProps CommonProps PlotModel PlotSpec PlotProofs PlotProps.
Import ListNotations.
Open Scope string_scope.
Open Scope list_scope.
Open Scope R_scope.

(** ---- graphs ---- *)

(** A figure with one line through the points s, with 10 % around it, and labels. *)
Definition line_figure (p : MPlot) (f : Z) (s : list (R * R)) (xt yt : string) : Prop :=
  mp_figure p = f /\ mp_artists p = [ALine (map fst s) (map snd s)] /\ mp_xlabel p = Some xt /\ mp_ylabel p = Some yt /\
  exists xlo xhi ylo yhi, mp_xlim p = Some (xlo, xhi) /\ mp_ylim p = Some (ylo, yhi) /\
    limits (1 / 10) (map fst s) xlo xhi /\ limits (1 / 10) (map snd s) ylo yhi /\
    forall x y, In (x, y) s -> xlo < x < xhi /\ ylo < y < yhi.

Lemma line_plot_ok f xs xt ys yt (srt : bool) : xs <> [] -> List.length xs = List.length ys ->
  exists p s, line_plot f xs xt ys yt srt = inr (p, map fst s, map snd s) /\ line_figure p f s xt yt /\
    (if srt then by_x s (combine xs ys) else s = combine xs ys).
Proof.
  intros NE L.
  assert (S1 : exists s, (if srt then sort_two xs ys else inr (xs, ys)) = inr (map fst s, map snd s) /\
                 (if srt then by_x s (combine xs ys) else s = combine xs ys)).
  { destruct srt.
    - destruct (sort_two_ok xs ys L) as (s & E & B). exists s. auto.
    - exists (combine xs ys). rewrite combine_fst, combine_snd by auto. auto. }
  destruct S1 as (s & E & B). unfold line_plot.
  destruct (Nat.eqb_spec (List.length xs) 0) as [Q|_]; [destruct xs; [congruence|discriminate]|].
  rewrite L, Nat.eqb_refl. cbn [orb negb]. rewrite E.
  destruct (min_max_plain (map fst s) graph_margin None None) as (xlo & xhi & (a & b & LX & -> & ->) & ->).
  destruct (min_max_plain (map snd s) graph_margin None None) as (ylo & yhi & (c & d & LY & -> & ->) & ->).
  cbn [of_cerr]. eexists. exists s. split; [reflexivity|]. split; [|exact B].
  split; [reflexivity|]. split; [reflexivity|]. split; [reflexivity|]. split; [reflexivity|].
  exists a, b, c, d. split; [reflexivity|]. split; [reflexivity|]. split; [exact LX|]. split; [exact LY|].
  assert (GM : 0 < graph_margin) by (unfold graph_margin; lra).
  intros x y I. split.
  - apply (limits_strict _ _ _ _ GM LX). apply in_map_iff. exists (x, y). auto.
  - apply (limits_strict _ _ _ _ GM LY). apply in_map_iff. exists (x, y). auto.
Qed.

(** C87.  matplotlib_wrapper.make_graph draws one line through all the points, in the order of x if sort is set, with
    limits around them, in the figure asked for or a new one.  The lists of the caller are those of the line afterwards. *)
Theorem C87_graph :
  forall n xs xt ys yt (srt : bool) fig,
    xs <> [] -> List.length xs = List.length ys ->
    exists p s, wrapper_graph n xs xt ys yt srt fig =
        (match fig with None => n + 1 | Some _ => n end, inr (p, map fst s, map snd s))%Z /\
      line_figure p (match fig with None => n + 1 | Some f => f end)%Z s xt yt /\
      (if srt then by_x s (combine xs ys) else s = combine xs ys).
Proof.
  intros n xs xt ys yt srt fig NE L. unfold wrapper_graph.
  destruct (line_plot_ok (match fig with None => n + 1 | Some f => f end)%Z xs xt ys yt srt NE L) as (p & s & E & F).
  exists p, s. destruct fig; cbn [get_figure_index]; rewrite E; auto.
Qed.
Print Assumptions C87_graph.

(** C87.  Without points, or with lists of different lengths, IndexError; a new figure is open all the same. *)
Theorem C87_graph_error :
  forall n xs xt ys yt (srt : bool) fig, xs = [] \/ List.length xs <> List.length ys ->
    wrapper_graph n xs xt ys yt srt fig = (match fig with None => n + 1 | Some _ => n end, inl PIndexError)%Z /\
    wrapper_scatter n xs xt ys yt fig = (match fig with None => n + 1 | Some _ => n end, inl PIndexError)%Z.
Proof.
  intros n xs xt ys yt srt fig H. unfold wrapper_graph, wrapper_scatter, line_plot.
  assert (C : (Nat.eqb (List.length xs) 0 || negb (Nat.eqb (List.length xs) (List.length ys)))%bool = true).
  { destruct H as [-> | H]; [reflexivity|]. apply orb_true_iff. right. apply negb_true_iff, Nat.eqb_neq. exact H. }
  destruct fig; cbn [get_figure_index]; rewrite C; auto.
Qed.
Print Assumptions C87_graph_error.

(** "make_matplot_graph(..., sort=False) keeps the order of the points" is refuted: it always sorts. *)
Theorem C87_sort_refuted :
  forall n xs xt ys yt (srt : bool),
    xs <> [] -> List.length xs = List.length ys ->
    exists p s, make_matplot_graph n xs xt ys yt srt = (n + 1, inr (p, map fst s, map snd s))%Z /\
      line_figure p (n + 1)%Z s xt yt /\ by_x s (combine xs ys).
Proof.
  intros n xs xt ys yt srt NE L. unfold make_matplot_graph. cbn [get_figure_index].
  destruct (line_plot_ok (n + 1)%Z xs xt ys yt true NE L) as (p & s & E & F). rewrite E. exists p, s. auto.
Qed.
Print Assumptions C87_sort_refuted.

(** "A plot leaves the lists of the caller alone" is refuted: two points that are out of order are swapped in them. *)
Theorem C87_caller_lists_refuted :
  forall n x1 x2 y1 y2 xt yt fig, x2 < x1 ->
    exists p q n1 n2, wrapper_graph n [x1; x2] xt [y1; y2] yt true fig = (n1, inr (p, [x2; x1], [y2; y1])) /\
      make_matplot_graph n [x1; x2] xt [y1; y2] yt false = (n2, inr (q, [x2; x1], [y2; y1])).
Proof.
  intros n x1 x2 y1 y2 xt yt fig L.
  destruct (C87_graph n [x1; x2] xt [y1; y2] yt true fig) as (p & s & E & _ & B); [discriminate|reflexivity|].
  destruct (C87_sort_refuted n [x1; x2] xt [y1; y2] yt false) as (q & t & E2 & _ & B2); [discriminate|reflexivity|].
  apply by_x_two in B; [|exact L]. apply by_x_two in B2; [|exact L]. subst s t.
  exists p, q. eexists. eexists. split; [exact E|exact E2].
Qed.
Print Assumptions C87_caller_lists_refuted.

Lemma multi_lines_ok xss : forall yss, Forall2 (fun a b => List.length a = List.length b) xss yss ->
  exists ss, multi_lines xss yss = inr (map (fun s => ALine (map fst s) (map snd s)) ss, map (map fst) ss, map (map snd) ss) /\
    Forall2 by_x ss (map (fun q => combine (fst q) (snd q)) (combine xss yss)).
Proof.
  induction xss as [|xs xr IH]; intros yss F; inversion F; subst.
  - exists []. split; [reflexivity|constructor].
  - cbn [multi_lines]. destruct (sort_two_ok xs y) as (s & E & B); [assumption|]. rewrite E, !map_length, Nat.eqb_refl.
    destruct (IH l') as (ss & E2 & B2); [assumption|]. rewrite E2. exists (s :: ss). split; [reflexivity|]. constructor; auto.
Qed.
Lemma perm_lists ss : forall ps, Forall2 by_x ss ps -> Permutation (concat ss) (concat ps).
Proof. induction 1 as [|s p ss ps (B & _) F IH]; cbn; [constructor|]. apply Permutation_app; auto. Qed.

(** C87.  make_matplot_multigraph: one line for each pair of lists, each in the order of x, and one pair of limits around all
    of them.  Again the lists of the caller are sorted. *)
Theorem C87_multigraph :
  forall n xss xt yss yt, Forall2 (fun a b => List.length a = List.length b) xss yss ->
    exists p ss xlo xhi ylo yhi,
      make_matplot_multigraph n xss xt yss yt = (n + 1, inr (p, map (map fst) ss, map (map snd) ss))%Z /\
      Forall2 by_x ss (map (fun q => combine (fst q) (snd q)) (combine xss yss)) /\
      mp_figure p = (n + 1)%Z /\ mp_artists p = map (fun s => ALine (map fst s) (map snd s)) ss /\
      mp_xlabel p = Some xt /\ mp_ylabel p = Some yt /\ mp_xlim p = Some (xlo, xhi) /\ mp_ylim p = Some (ylo, yhi) /\
      limits (1 / 10) (concat xss) xlo xhi /\ limits (1 / 10) (concat yss) ylo yhi /\
      forall s x y, In s ss -> In (x, y) s -> xlo < x < xhi /\ ylo < y < yhi.
Proof.
  intros n xss xt yss yt F. unfold make_matplot_multigraph. cbn [get_figure_index].
  destruct (min_max_plain (concat xss) graph_margin None None) as (xlo & xhi & (a & b & LX & -> & ->) & ->).
  destruct (min_max_plain (concat yss) graph_margin None None) as (ylo & yhi & (c & d & LY & -> & ->) & ->).
  cbn [of_cerr]. destruct (multi_lines_ok xss yss F) as (ss & E & B). rewrite E.
  eexists. exists ss, a, b, c, d. split; [reflexivity|]. split; [exact B|].
  repeat (split; [first [reflexivity|exact LX|exact LY]|]).
  intros s x y Hs I.
  assert (C : In (x, y) (concat (map (fun q => combine (fst q) (snd q)) (combine xss yss)))).
  { apply (Permutation_in _ (perm_lists _ _ B)). apply in_concat. eauto. }
  assert (XY : In x (concat xss) /\ In y (concat yss)).
  { apply in_concat in C. destruct C as (l & Hl & I2). apply in_map_iff in Hl. destruct Hl as ([u v] & <- & Hl). cbn [fst snd] in I2.
    split; apply in_concat.
    - exists u. split; [exact (in_combine_l _ _ _ _ Hl)|exact (in_combine_l _ _ _ _ I2)].
    - exists v. split; [exact (in_combine_r _ _ _ _ Hl)|exact (in_combine_r _ _ _ _ I2)]. }
  assert (GM : 0 < graph_margin) by (unfold graph_margin; lra).
  split; [apply (limits_strict _ _ _ _ GM LX)|apply (limits_strict _ _ _ _ GM LY)]; apply XY.
Qed.
Print Assumptions C87_multigraph.

(** C87.  matplotlib_wrapper.make_scatter shows the points as they are given, with these labels. *)
Theorem C87_scatter :
  forall n xs xt ys yt fig, xs <> [] -> List.length xs = List.length ys ->
    wrapper_scatter n xs xt ys yt fig =
      (match fig with None => n + 1 | Some _ => n end,
       inr (mkMPlot (match fig with None => n + 1 | Some f => f end) [APoints xs ys] (Some xt) (Some yt) None None))%Z.
Proof.
  intros n xs xt ys yt fig NE L. unfold wrapper_scatter. rewrite L, Nat.eqb_refl.
  destruct (Nat.eqb_spec (List.length ys) 0) as [Q|_]; [destruct xs; [congruence|cbn in L; lia]|]. destruct fig; reflexivity.
Qed.
Print Assumptions C87_scatter.

(** "make_matplot_scatter labels the y axis with y_axis_string" is refuted: it has the label of x. *)
Theorem C87_label_refuted :
  forall n xs xt ys yt, xs <> [] -> List.length xs = List.length ys ->
    exists p, make_matplot_scatter n xs xt ys yt = (n + 1, inr p)%Z /\ mp_artists p = [APoints xs ys] /\ mp_ylabel p = Some xt.
Proof.
  intros n xs xt ys yt NE L. unfold make_matplot_scatter. rewrite L, Nat.eqb_refl. cbn [get_figure_index].
  destruct (Nat.eqb_spec (List.length ys) 0) as [Q|_]; [destruct xs; [congruence|cbn in L; lia]|]. eexists. split; [reflexivity|]. auto.
Qed.
Print Assumptions C87_label_refuted.

(** ---- figures ---- *)

(** The figure a call asks for. *)
Definition asked (c : MCall) : option Z :=
  match c with
  | WHist _ _ _ _ _ _ _ fig | WGraph _ _ _ _ _ fig | WScatter _ _ _ _ fig => fig
  | _ => None
  end.

Lemma matplot_histogram_figure n xs xt nx ys yt ny ws m r : make_matplot_histogram n xs xt nx ys yt ny ws = (m, r) ->
  m = (n + 1)%Z /\ forall p, r = inr p -> mp_figure p = (n + 1)%Z.
Proof.
  unfold make_matplot_histogram. cbn [get_figure_index]. intros E. injection E as <- <-. split; [reflexivity|]. intros p E.
  destruct xs; [discriminate|]. destruct (negb _); [destruct (histogram_line _ _ _); [discriminate|]|]; injection E as <-; reflexivity.
Qed.
Lemma line_plot_figure f xs xt ys yt srt p a b : line_plot f xs xt ys yt srt = inr (p, a, b) -> mp_figure p = f.
Proof.
  unfold line_plot. destruct (_ || _)%bool; [discriminate|]. destruct (if srt then _ else _) as [e|[u v]]; [discriminate|].
  destruct (of_cerr _) as [e|[[? ?] ?]]; [discriminate|]. destruct (of_cerr _) as [e|[[? ?] ?]]; [discriminate|].
  intros E. injection E as <- _ _. reflexivity.
Qed.
Lemma matplot_graph_figure n xs xt ys yt srt m r : make_matplot_graph n xs xt ys yt srt = (m, r) ->
  m = (n + 1)%Z /\ forall p a b, r = inr (p, a, b) -> mp_figure p = (n + 1)%Z.
Proof.
  unfold make_matplot_graph. cbn [get_figure_index]. intros E. injection E as <- <-. split; [reflexivity|]. intros p a b E.
  apply line_plot_figure in E. exact E.
Qed.

(** A call counts the figures up by one if it does not ask for one, or leaves the count as it is (an error before the
    figure is opened); its plot is in the figure asked for, or in the one just counted. *)
Lemma mcall_figure n c m r : mcall n c = (m, r) ->
  (m = n \/ m = n + 1)%Z /\
  forall p, r = inr p -> match asked c with Some f => mp_figure p = f | None => m = (n + 1)%Z /\ mp_figure p = m end.
Proof.
  destruct c as [xs xt nx ys yt ny ws|xs xt ys yt srt|xss xt yss yt|xs xt ys yt|xs xt nx ys yt ny ws fig|xs xt ys yt srt fig|xs xt ys yt fig
    |ex flag inv w fx b x ux y uy|ex flag inv w fx b x y ux uy weightless|ex flag w bs x xv y yv ux uy comparator]; cbn [mcall asked]; intros E.
  - apply matplot_histogram_figure in E. destruct E as [-> E]. split; [lia|]. intros p P. rewrite (E p P). auto.
  - destruct (make_matplot_graph _ _ _ _ _ _) as [m' r'] eqn:G. injection E as <- <-. apply matplot_graph_figure in G. destruct G as [-> G].
    split; [lia|]. intros p P. destruct r' as [e|[[q a] b]]; cbn [plot_of] in P; [discriminate|]. injection P as ->. rewrite (G p a b eq_refl). auto.
  - unfold make_matplot_multigraph in E. cbn [get_figure_index] in E. injection E as <- <-. split; [lia|]. intros p P.
    destruct (of_cerr _) as [e|[[? ?] ?]]; [discriminate|]. destruct (of_cerr _) as [e|[[? ?] ?]]; [discriminate|].
    destruct (multi_lines _ _) as [e|[[ls xo] yo]]; [discriminate|]. cbn [plot_of] in P. injection P as <-. auto.
  - unfold make_matplot_scatter in E. cbn [get_figure_index] in E. injection E as <- <-. split; [lia|]. intros p P.
    destruct (Nat.eqb _ 0); [discriminate|]. destruct (Nat.eqb _ _); [|discriminate]. injection P as <-. auto.
  - unfold wrapper_histogram in E. destruct fig as [f|]; cbn [get_figure_index] in E; injection E as <- <-; (split; [lia|]); intros p P;
      (destruct xs; [discriminate|]); (destruct (negb _); [destruct (histogram_line _ _ _); [discriminate|]|]); injection P as <-; auto.
  - unfold wrapper_graph in E. destruct fig as [f|]; cbn [get_figure_index] in E; injection E as <- <-; (split; [lia|]); intros p P;
      destruct (line_plot _ _ _ _ _ _) as [e|[[q a] b]] eqn:G; cbn [plot_of] in P; try discriminate P; injection P as ->; apply line_plot_figure in G; auto.
  - unfold wrapper_scatter in E. destruct fig as [f|]; cbn [get_figure_index] in E; injection E as <- <-; (split; [lia|]); intros p P;
      (destruct (_ || _)%bool; [discriminate|]); injection P as <-; auto.
  - unfold matplot_histogram in E. destruct (points_1d _ _ _ _ _ _ x ux) as [e|xs]; [injection E as <- <-; split; [lia|]; intros p P; discriminate|].
    destruct (if String.eqb y "" then _ else _) as [e|[ys bins]]; [injection E as <- <-; split; [lia|]; intros p P; discriminate|].
    apply matplot_histogram_figure in E. destruct E as [-> E]. split; [lia|]. intros p P. rewrite (E p P). auto.
  - unfold matplot_scatter_graph in E. destruct (scatter_points _ _ _ _ _ _ _ _ _ _ _) as [e|[xs ys]]; [injection E as <- <-; split; [lia|]; intros p P; discriminate|].
    unfold make_matplot_scatter in E. cbn [get_figure_index] in E. injection E as <- <-. split; [lia|]. intros p P.
    destruct (Nat.eqb _ 0); [discriminate|]. destruct (Nat.eqb _ _); [|discriminate]. injection P as <-. auto.
  - unfold matplot_graph in E. destruct comparator; [injection E as <- <-; split; [lia|]; intros p P; discriminate|].
    destruct (of_merr _) as [e|ps]; [injection E as <- <-; split; [lia|]; intros p P; discriminate|].
    destruct (numbers _) as [e|xs]; [injection E as <- <-; split; [lia|]; intros p P; discriminate|].
    destruct (numbers _) as [e|ys]; [injection E as <- <-; split; [lia|]; intros p P; discriminate|].
    destruct (make_matplot_graph _ _ _ _ _ _) as [m' [e|[[q a] b]]] eqn:G; injection E as <- <-; apply matplot_graph_figure in G; destruct G as [-> G].
    + split; [lia|]. intros p P. discriminate.
    + split; [lia|]. intros p P. injection P as ->. rewrite (G p a b eq_refl). auto.
Qed.

(** The figures of the plots that did not ask for one. *)
Definition new_figures (l : list (MCall * MPlot)) : list Z :=
  map (fun cp => mp_figure (snd cp)) (filter (fun cp => match asked (fst cp) with None => true | Some _ => false end) l).

(** C87.  Over every history of calls, plots that do not ask for a figure are in figures different from each other; one that
    asks for a figure is in that. *)
Theorem C87_figures :
  forall n cs, NoDup (new_figures (mcalls n cs)) /\ (forall f, In f (new_figures (mcalls n cs)) -> (n < f)%Z) /\
    forall c p f, In (c, p) (mcalls n cs) -> asked c = Some f -> mp_figure p = f.
Proof.
  intros n cs. revert n. induction cs as [|c cs IH]; intros n; cbn [mcalls].
  - split; [constructor|]. split; [intros f []|intros c p f []].
  - destruct (mcall n c) as [m r] eqn:E. destruct (mcall_figure n c m r E) as [M P]. destruct (IH m) as (I1 & I2 & I3).
    destruct r as [e|p].
    + split; [exact I1|]. split; [|exact I3]. intros f F. specialize (I2 f F). lia.
    + specialize (P p eq_refl). split; [|split].
      * unfold new_figures. cbn [filter fst]. destruct (asked c); [exact I1|]. cbn [map snd]. constructor; [|exact I1].
        destruct P as [_ ->]. intros F. apply I2 in F. lia.
      * intros f. unfold new_figures. cbn [filter fst]. destruct (asked c).
        -- intros F. apply I2 in F. lia.
        -- cbn [map snd]. intros [<-|F]; [lia|]. apply I2 in F. lia.
      * intros c' p' f [Q|Q] A; [|eauto]. injection Q as -> ->. rewrite A in P. exact P.
Qed.
Print Assumptions C87_figures.

(** "A call that asks for no figure opens a new one" is refuted: it can be one that an earlier call has asked for. *)
Theorem C87_figures_refuted :
  exists c1 c2 p1 p2, mcalls 0 [c1; c2] = [(c1, p1); (c2, p2)] /\ asked c2 = None /\ mp_figure p2 = mp_figure p1.
Proof.
  exists (WScatter [0] "x" [0] "y" (Some 1%Z)), (WScatter [1] "x" [1] "y" None). eexists. eexists. split; [reflexivity|]. split; reflexivity.
Qed.
Print Assumptions C87_figures_refuted.

(** ---- histograms ---- *)

(** The result of drawing the values xs with the weights ws in n bins as one line: a point at the centre of each bin, with
    its content, from the first bin that is not empty up to the last but one.  IndexError if all bins are empty. *)
Definition histogram_figure (r : PErr + MPlot) (f : Z) (xs ws : list R) (n : nat) (xt : string) : Prop :=
  exists lo hi c,
    np_axis xs lo hi /\ lo < hi /\ List.length c = n /\
    (forall i, (i < n)%nat -> sum_where (fun p => np_bin lo hi n i (fst p)) snd (combine xs ws) (nth i c 0)) /\
    ((forall v, In v c -> Rabs v < 1 / 1000000000) -> r = inl PIndexError) /\
    (forall k, (k < n)%nat -> 1 / 1000000000 <= Rabs (nth k c 0) -> (forall j, (j < k)%nat -> Rabs (nth j c 0) < 1 / 1000000000) ->
       r = inr (mkMPlot f [ALine (map (fun i => lo + (INR i + 1 / 2) * ((hi - lo) / INR n)) (seq k (n - 1 - k)))
                              (map (fun i => nth i c 0) (seq k (n - 1 - k)))] (Some xt) None None None)).

Lemma np_limits_ok xs : xs <> [] -> exists lo hi, np_limits xs = (lo, hi) /\ np_axis xs lo hi /\ lo < hi.
Proof.
  destruct xs as [|y r]; [congruence|]. intros _. cbn [np_limits].
  destruct (py_min_spec r y) as (A & A1 & A2). destruct (py_max_spec r y) as (B & B1 & B2).
  assert (LE : least (py_min r y) (y :: r)).
  { split; [destruct A as [-> | A]; [left; reflexivity|right; exact A]|]. intros x [<-|I]; auto. }
  assert (LA : largest (py_max r y) (y :: r)).
  { split; [destruct B as [-> | B]; [left; reflexivity|right; exact B]|]. intros x [<-|I]; auto. }
  destruct (Req_EM_T (py_min r y) (py_max r y)) as [Q|Q].
  - eexists. eexists. split; [reflexivity|]. split; [|lra]. eexists. eexists. split; [exact LE|]. split; [exact LA|]. right. auto.
  - eexists. eexists. split; [reflexivity|]. split; [|lra]. eexists. eexists. split; [exact LE|]. split; [exact LA|]. left. split; [lra|auto].
Qed.

Lemma np_in_bin lo hi z i x : (1 <= z)%Z -> (i < Z.to_nat z)%nat -> np_in lo hi z i x = true <-> np_bin lo hi (Z.to_nat z) i x.
Proof.
  intros Z1 I. assert (Ez : IZR z = INR (Z.to_nat z)) by (rewrite INR_IZR_INZ, Z2Nat.id by lia; reflexivity).
  unfold np_in, np_bin, np_edge. rewrite Ez. cbv zeta. set (d := (hi - lo) / INR (Z.to_nat z)).
  rewrite andb_true_iff, orb_true_iff, andb_true_iff. unfold rleb, rltb.
  assert (LastE : S i = Z.to_nat z -> lo + INR (S i) * d = hi).
  { intros ->. unfold d. field. rewrite <- Ez. apply not_0_IZR. lia. }
  destruct (Rle_dec (lo + INR i * d) x) as [A|A]; [|split; [intros [? _]; discriminate|intros [? _]; contradiction]].
  destruct (Rlt_dec x (lo + INR (S i) * d)) as [B|B]; [tauto|].
  destruct (Rle_dec x (lo + INR (S i) * d)) as [C|C].
  - split.
    + intros [_ [Q|[Q _]]]; [discriminate|]. apply Z.eqb_eq in Q. split; auto. right. assert (QQ : S i = Z.to_nat z) by lia. split; auto.
      specialize (LastE QQ). lra.
    + intros [_ [Q|[Q ->]]]; [contradiction|]. split; auto. right. split; auto. apply Z.eqb_eq. lia.
  - split; [intros [_ [Q|[_ Q]]]; discriminate|]. intros [_ [Q|[Q ->]]]; [contradiction|]. specialize (LastE Q). lra.
Qed.

Lemma np_sum_where (p : R -> bool) (P : R -> Prop) : (forall x, p x = true <-> P x) -> forall xs ws, List.length ws = List.length xs ->
  sum_where (fun q => P (fst q)) snd (combine xs ws) (np_sum p xs ws).
Proof.
  intros H. induction xs as [|x xs IH]; intros [|v ws] L; try discriminate; cbn [combine np_sum]; [constructor|].
  destruct (p x) eqn:Q.
  - apply (sum_in (fun q : R * R => P (fst q)) snd (x, v)); [apply H, Q|]. apply IH. cbn in L; lia.
  - rewrite Rplus_0_l. apply sum_out; [cbn [fst]; rewrite <- H; congruence|]. apply IH. cbn in L; lia.
Qed.

Lemma first_filled_none c : (forall v, In v c -> Rabs v < 1 / 1000000000) -> forall i, first_filled c i = inl PIndexError.
Proof.
  induction c as [|v c IH]; intros H i; cbn [first_filled]; auto.
  rewrite (proj2 (rltb_true _ _)) by (apply H; left; auto). apply IH. intros; apply H; right; auto.
Qed.
Lemma first_filled_some c : forall k i, (k < List.length c)%nat -> 1 / 1000000000 <= Rabs (nth k c 0) ->
  (forall j, (j < k)%nat -> Rabs (nth j c 0) < 1 / 1000000000) -> first_filled c i = inr (i + k)%nat.
Proof.
  induction c as [|v c IH]; intros k i K B H; [cbn in K; lia|]. cbn [first_filled]. destruct k as [|k].
  - cbn [nth] in B. destruct (rltb (Rabs v) _) eqn:Q; [apply rltb_true in Q; lra|]. f_equal. lia.
  - rewrite (proj2 (rltb_true _ _)) by (apply (H 0%nat); lia). rewrite (IH k (S i)); [f_equal; lia|cbn in K; lia|exact B|].
    intros j J. apply (H (S j)). lia.
Qed.

Lemma histogram_line_ok xs z ws f xt r : xs <> [] -> (1 <= z)%Z -> List.length ws = List.length xs \/ ws = [] ->
  r = match histogram_line xs z ws with inl e => inl e | inr a => inr (mkMPlot f [a] (Some xt) None None None) end ->
  histogram_figure r f xs (fill_weights xs ws) (Z.to_nat z) xt.
Proof.
  intros NE Z1 L E. assert (Ez : IZR z = INR (Z.to_nat z)) by (rewrite INR_IZR_INZ, Z2Nat.id by lia; reflexivity).
  destruct (np_limits_ok xs NE) as (lo & hi & EL & A & LH).
  assert (W : match match ws with [] => None | _ => Some ws end with Some w => w | None => map (fun _ => 1) xs end = fill_weights xs ws)
    by (destruct ws; reflexivity).
  assert (LW : List.length (fill_weights xs ws) = List.length xs).
  { unfold fill_weights. destruct ws; [apply map_length|]. destruct L; [auto|discriminate]. }
  unfold histogram_line, np_histogram in E. rewrite W, LW, Nat.eqb_refl, EL in E. destruct (Z.ltb_spec z 1) as [Zl|_]; [lia|]. cbn [negb] in E.
  set (c := map (fun i => np_sum (np_in lo hi z i) xs (fill_weights xs ws)) (seq 0 (Z.to_nat z))) in *.
  assert (LC : List.length c = Z.to_nat z) by (unfold c; rewrite map_length, seq_length; reflexivity).
  exists lo, hi, c. split; [exact A|]. split; [exact LH|]. split; [exact LC|]. split; [|split].
  - intros i I. unfold c.
    rewrite (nth_indep _ 0 (np_sum (np_in lo hi z 0) xs (fill_weights xs ws))) by (rewrite map_length, seq_length; exact I).
    rewrite (map_nth (fun i => np_sum (np_in lo hi z i) xs (fill_weights xs ws))), seq_nth by exact I. cbn [Nat.add].
    apply np_sum_where; [|exact LW]. intros x. apply np_in_bin; auto.
  - intros H. rewrite (first_filled_none c H) in E. exact E.
  - intros k K B H. rewrite (first_filled_some c k 0) in E; [|lia|exact B|exact H]. cbn [Nat.add] in E. rewrite LC in E. rewrite E. do 3 f_equal. f_equal.
    apply map_ext_in. intros i I. apply in_seq in I.
    assert (N : forall j, (j < S (Z.to_nat z))%nat -> nth j (map (np_edge lo hi z) (seq 0 (S (Z.to_nat z)))) 0 = lo + INR j * ((hi - lo) / INR (Z.to_nat z))).
    { intros j J. rewrite (nth_indep _ 0 (np_edge lo hi z 0)) by (rewrite map_length, seq_length; exact J).
      rewrite map_nth, seq_nth by exact J. unfold np_edge. rewrite Ez. reflexivity. }
    rewrite !N by lia. rewrite S_INR. field. rewrite <- Ez. apply not_0_IZR. lia.
Qed.

(** C87.  make_matplot_histogram and matplotlib_wrapper.make_histogram without y values. *)
Theorem C87_histogram :
  forall n xs xt (nx : Z) ys yt ny ws fig,
    xs <> [] -> List.length ys <> List.length xs -> (1 <= nx)%Z -> List.length ws = List.length xs \/ ws = [] ->
    let m := match fig with None => (n + 1)%Z | Some _ => n end in
    let f := match fig with None => (n + 1)%Z | Some g => g end in
    fst (wrapper_histogram n xs xt nx ys yt ny ws fig) = m /\
    histogram_figure (snd (wrapper_histogram n xs xt nx ys yt ny ws fig)) f xs (fill_weights xs ws) (Z.to_nat nx) xt /\
    fst (make_matplot_histogram n xs xt nx ys yt ny ws) = (n + 1)%Z /\
    histogram_figure (snd (make_matplot_histogram n xs xt nx ys yt ny ws)) (n + 1) xs (fill_weights xs ws) (Z.to_nat nx) xt.
Proof.
  intros n xs xt nx ys yt ny ws fig NE LY N L. cbv zeta.
  assert (C : negb (Nat.eqb (List.length ys) (List.length xs)) = true) by (apply negb_true_iff, Nat.eqb_neq; exact LY).
  unfold wrapper_histogram, make_matplot_histogram.
  destruct xs as [|x0 xr]; [congruence|]. rewrite C. split; [destruct fig; reflexivity|]. split; [|split; [reflexivity|]].
  - destruct fig; cbn [get_figure_index snd]; apply (histogram_line_ok (x0 :: xr) nx ws); auto.
  - cbn [get_figure_index snd]; apply (histogram_line_ok (x0 :: xr) nx ws); auto.
Qed.
Print Assumptions C87_histogram.

Lemma sum_where_rsum {A} (P : A -> Prop) (q : A -> bool) (w : A -> R) l s : (forall x, In x l -> q x = true <-> P x) ->
  sum_where P w l s -> s = rsum (fun x => if q x then w x else 0) l.
Proof.
  intros H S0. induction S0 as [|x l s Px S0 IH|x l s Px S0 IH]; cbn [rsum]; [reflexivity| |].
  - rewrite (proj2 (H x (or_introl eq_refl)) Px), <- IH; [reflexivity|]. intros; apply H; right; auto.
  - destruct (q x) eqn:Q; [apply H in Q; [contradiction|left; auto]|]. rewrite <- IH; [lra|]. intros; apply H; right; auto.
Qed.
Lemma sum_where_ge {A} (P : A -> Prop) (w : A -> R) l s : (forall x, In x l -> 0 <= w x) -> sum_where P w l s ->
  0 <= s /\ forall x, In x l -> P x -> w x <= s.
Proof.
  intros N S0. induction S0 as [|x l s Px S0 IH|x l s Px S0 IH].
  - split; [lra|intros x []].
  - destruct IH as [I1 I2]. { intros; apply N; right; auto. } pose proof (N x (or_introl eq_refl)). split; [lra|].
    intros y [<-|I] Py; [lra|]. specialize (I2 y I Py). lra.
  - destruct IH as [I1 I2]. { intros; apply N; right; auto. } split; [lra|]. intros y [<-|I] Py; [contradiction|auto].
Qed.
Lemma steps_sum lo d x v m : 0 < d -> lo <= x ->
  rsum (fun i => if (rleb (lo + INR i * d) x && rltb x (lo + INR (S i) * d))%bool then v else 0) (seq 0 m) =
  if rltb x (lo + INR m * d) then v else 0.
Proof.
  intros D L. induction m as [|m IH].
  - cbn [seq rsum]. unfold rltb. destruct (Rlt_dec x (lo + INR 0 * d)) as [Q|_]; [cbn in Q; lra|reflexivity].
  - rewrite seq_S, rsum_app, IH. cbn [Nat.add rsum]. unfold rltb, rleb.
    assert (lo + INR m * d < lo + INR (S m) * d) by (rewrite S_INR; nra).
    destruct (Rlt_dec x (lo + INR m * d)), (Rle_dec (lo + INR m * d) x), (Rlt_dec x (lo + INR (S m) * d)); cbn [andb]; try lra.
Qed.

(** "The line shows all the weight" is refuted: the last bin is never shown, and the largest value is in it. *)
Theorem C87_last_bin_refuted :
  forall r f xs ws n xt x1 x2,
    histogram_figure r f xs ws n xt -> List.length ws = List.length xs -> (1 <= n)%nat ->
    (forall v, In v ws -> 1 / 1000000000 <= v) -> In x1 xs -> In x2 xs -> x1 < x2 ->
    exists p cx cy, r = inr p /\ mp_artists p = [ALine cx cy] /\ List.length cy = (n - 1)%nat /\
      rsum (fun v => v) cy < rsum (fun v => v) ws.
Proof.
  intros r f xs ws n xt x1 x2 (lo & hi & c & (a & b & [Ia La] & [Ib Lb] & AX) & LH & LC & CS & _ & H) L N W I1 I2 L12.
  assert (AB : a < b) by (specialize (La x1 I1); specialize (Lb x2 I2); lra).
  destruct AX as [(_ & -> & ->)|(Q & _)]; [|lra].
  assert (NP : 1 <= INR n) by (apply (le_INR 1); lia).
  set (d := (b - a) / INR n). assert (D : 0 < d) by (apply Rdiv_lt_0_compat; lra).
  assert (WP : forall p : R * R, In p (combine xs ws) -> 0 <= snd p).
  { intros [x v] I. apply in_combine_r in I. specialize (W v I). cbn. lra. }
  assert (PAIR : forall x, In x xs -> exists v, In (x, v) (combine xs ws) /\ 1 / 1000000000 <= v).
  { intros x I. rewrite <- (combine_fst xs ws) in I by lia. apply in_map_iff in I. destruct I as ([y v] & <- & I). exists v. split; auto.
    apply W. apply in_combine_r in I. exact I. }
  assert (C0 : 1 / 1000000000 <= nth 0 c 0).
  { destruct (PAIR a Ia) as (v & I & V). destruct (sum_where_ge _ _ _ _ WP (CS 0%nat ltac:(lia))) as [_ G]. specialize (G (a, v) I).
    cbn [snd fst] in G. apply Rle_trans with v; [exact V|]. apply G. unfold np_bin. cbv zeta. fold d. cbn [INR]. split; [lra|]. left. lra. }
  specialize (H 0%nat ltac:(lia)). rewrite Rabs_right in H by lra. specialize (H C0 ltac:(intros j J; lia)).
  eexists. eexists. eexists. split; [exact H|]. split; [reflexivity|]. rewrite map_length, seq_length. split; [lia|].
  replace (n - 1 - 0)%nat with (n - 1)%nat by lia. rewrite rsum_map.
  assert (E : rsum (fun i => nth i c 0) (seq 0 (n - 1)) =
    rsum (fun p => if rltb (fst p) (a + INR (n - 1) * d) then snd p else 0) (combine xs ws)).
  { rewrite (rsum_ext (fun i => nth i c 0)
      (fun i => rsum (fun p => if (rleb (a + INR i * d) (fst p) && rltb (fst p) (a + INR (S i) * d))%bool then snd p else 0) (combine xs ws))).
    - rewrite MomentProofs.rsum_swap. apply rsum_ext. intros [x v] I. cbn [fst snd]. apply steps_sum; auto. apply La. apply in_combine_l in I. exact I.
    - intros i I. apply in_seq in I. apply (sum_where_rsum (fun p => np_bin a b n i (fst p)) (fun p => (rleb (a + INR i * d) (fst p) && rltb (fst p) (a + INR (S i) * d))%bool)).
      + intros p _. rewrite andb_true_iff. unfold rleb, rltb, np_bin. cbv zeta. fold d.
        destruct (Rle_dec (a + INR i * d) (fst p)), (Rlt_dec (fst p) (a + INR (S i) * d)); split; intros [X Y]; try discriminate; try contradiction; auto.
        destruct Y as [Y|[Y _]]; [contradiction|lia].
      + apply CS. lia. }
  cbn [seq] in *. rewrite E. clear E.
  assert (T : rsum (fun v => v) ws = rsum (fun p => snd p) (combine xs ws)).
  { rewrite <- (combine_snd xs ws) at 1 by lia. rewrite rsum_map. reflexivity. }
  rewrite T. destruct (PAIR b Ib) as (v & I & V).
  assert (TOP : rltb b (a + INR (n - 1) * d) = false).
  { unfold rltb. destruct (Rlt_dec b (a + INR (n - 1) * d)) as [Q|_]; [|reflexivity]. exfalso.
    assert (a + INR n * d = b) by (unfold d; field; lra). assert (INR n = INR (n - 1) + 1) by (rewrite <- S_INR; f_equal; lia). nra. }
  apply in_split in I. destruct I as (l1 & l2 & IS). rewrite IS in *. rewrite !rsum_app. cbn [rsum fst snd]. rewrite TOP.
  assert (LE : forall l, (forall p, In p l -> In p (l1 ++ (b, v) :: l2)) ->
    rsum (fun p => if rltb (fst p) (a + INR (n - 1) * d) then snd p else 0) l <= rsum (fun p => snd p) l).
  { intros l Hl. apply rsum_le. intros p Ip. specialize (WP p (Hl p Ip)). destruct (rltb (fst p) _); [apply Rle_refl|exact WP]. }
  pose proof (LE l1 ltac:(intros; apply in_or_app; auto)). pose proof (LE l2 ltac:(intros; apply in_or_app; right; right; auto)). lra.
Qed.
Print Assumptions C87_last_bin_refuted.

(** ---- bunches ---- *)

Lemma filter_weighted w hits :
  filter (fun l => rltb 0 (Rabs (hit_weight w l))) hits = filter (fun l => if Req_EM_T (wt w l) 0 then false else true) hits.
Proof.
  apply filter_ext. intros l. generalize (hit_weight_wt w l). generalize (hit_weight w l). intros ? ->. unfold rltb.
  destruct (Req_EM_T (wt w l) 0) as [-> |N].
  - rewrite Rabs_R0. destruct (Rlt_dec 0 0); [lra|reflexivity].
  - destruct (Rlt_dec 0 (Rabs (wt w l))) as [_|Q]; [reflexivity|]. exfalso. apply Q, Rabs_pos_lt, N.
Qed.
(** The number of hits whose weight is not 0. *)
Definition weighted_hits (w : RWorld) (hits : list nat) : nat :=
  List.length (filter (fun l => if Req_EM_T (wt w l) 0 then false else true) hits).

(** C87.  Bunch.matplot_histogram of one variable: the line for the values of all hits in the unit asked for, with their
    weights, in int(k/10 + 1) bins for k hits of weight not 0. *)
Theorem C87_bunch_histogram :
  forall ex flag inv (w : RWorld) n fx (b : Bunch) x ux uy val size,
    readings ex w (b_hits b) [x] val -> amplitude_axes x = None -> assoc units ux = Some size -> b_hits b <> [] ->
    exists z xt, bins_for None (INR (weighted_hits w (b_hits b)) / 10 + 1) z /\ (1 <= z)%Z /\
      fst (matplot_histogram ex flag inv w n fx b x ux "" uy) = (n + 1)%Z /\
      histogram_figure (snd (matplot_histogram ex flag inv w n fx b x ux "" uy)) (n + 1)
        (map (fun l => val x l / size) (b_hits b)) (map (wt w) (b_hits b)) (Z.to_nat z) xt.
Proof.
  intros ex flag inv w n fx b x ux uy val size Rd A U NE. unfold matplot_histogram.
  rewrite (points_1d_ok ex flag inv w fx b x ux val size Rd A U), filter_weighted. fold (weighted_hits w (b_hits b)). cbn [String.eqb].
  set (q := INR (weighted_hits w (b_hits b)) / 10 + 1). pose proof (int_of_bins q) as B.
  assert (Z1 : (1 <= int_of q)%Z).
  { unfold bins_for in B. destruct B as [_ B]. assert (1 <= q) by (unfold q; pose proof (pos_INR (weighted_hits w (b_hits b))); lra).
    assert (0 < int_of q)%Z by (apply lt_IZR; lra). lia. }
  exists (int_of q), (x ++ unit_label ux "")%string. split; [exact B|]. split; [exact Z1|].
  set (xs := map (fun l => val x l / size) (b_hits b)).
  assert (NX : xs <> []) by (unfold xs; destruct (b_hits b); [congruence|discriminate]).
  assert (LX : List.length xs = List.length (b_hits b)) by apply map_length.
  destruct (C87_histogram n xs (x ++ unit_label ux "")%string (int_of q) [] ("" ++ unit_label uy "")%string (int_of q) (map (hit_weight w) (b_hits b)) None)
    as (_ & _ & F & G); auto.
  { destruct xs; [congruence|discriminate]. } { left. rewrite map_length. auto. }
  rewrite fill_weights_hits in G by exact LX. auto.
Qed.
Print Assumptions C87_bunch_histogram.

(** "The histogram of a bunch shows something" is refuted: with fewer than 10 hits of weight not 0 there is one bin, and the last
    bin is not shown. *)
Theorem C87_small_bunch_refuted :
  forall ex flag inv (w : RWorld) n fx (b : Bunch) x ux uy val size,
    readings ex w (b_hits b) [x] val -> amplitude_axes x = None -> assoc units ux = Some size -> b_hits b <> [] ->
    (weighted_hits w (b_hits b) < 10)%nat -> 1 / 1000000000 <= Rabs (total_weight w (b_hits b)) ->
    exists p, snd (matplot_histogram ex flag inv w n fx b x ux "" uy) = inr p /\ mp_artists p = [ALine [] []].
Proof.
  intros ex flag inv w n fx b x ux uy val size Rd A U NE K T.
  destruct (C87_bunch_histogram ex flag inv w n fx b x ux uy val size Rd A U NE) as (z & xt & B & Z1 & _ & lo & hi & c & AX & LH & LC & CS & _ & H).
  assert (z = 1)%Z.
  { unfold bins_for in B. destruct B as [B _]. apply (lt_INR _ 10) in K. rewrite (INR_IZR_INZ 10) in K. cbn in K.
    assert (z < 2)%Z by (apply lt_IZR; lra). lia. }
  subst z. change (Z.to_nat 1) with 1%nat in *.
  specialize (CS 0%nat ltac:(lia)).
  assert (E : nth 0 c 0 = total_weight w (b_hits b)).
  { apply (sum_where_rsum _ (fun _ => true)) in CS.
    - rewrite CS. unfold total_weight. clear. generalize (b_hits b) as hs.
      induction hs as [|h hs IH]; cbn [map combine rsum snd]; [reflexivity|rewrite IH; reflexivity].
    - intros [v u] I. cbn [fst]. split; auto. intros _. apply in_combine_l in I.
      destruct AX as (a & b0 & [Ia La] & [Ib Lb] & AX). specialize (La v I). specialize (Lb v I). unfold np_bin. cbv zeta. cbn [INR].
      destruct AX as [(Q & -> & ->)|(Q & -> & ->)].
      + split; [lra|]. destruct (Rle_lt_or_eq_dec v b0 Lb) as [Lt| ->]; [left; lra|right; auto].
      + split; [lra|]. left. lra. }
  eexists. split; [apply (H 0%nat); [lia|rewrite E; exact T|intros j J; lia]|]. reflexivity.
Qed.
Print Assumptions C87_small_bunch_refuted.

(** C87.  Bunch.matplot_histogram of two variables hands the values and the weights of all hits to hexbin. *)
Theorem C87_bunch_hexbin :
  forall ex flag inv (w : RWorld) n fx (b : Bunch) x ux y uy val sx sy,
    y <> "" -> readings ex w (b_hits b) [x; y] val -> amplitude_axes x = None -> amplitude_axes y = None ->
    assoc units ux = Some sx -> assoc units uy = Some sy -> b_hits b <> [] ->
    exists z p, bins_for None (sqrt (INR (weighted_hits w (b_hits b))) / 10 + 1) z /\
      matplot_histogram ex flag inv w n fx b x ux y uy = (n + 1, inr p)%Z /\ mp_figure p = (n + 1)%Z /\
      mp_artists p = [AHexbin (map (fun l => val x l / sx) (b_hits b)) (map (fun l => val y l / sy) (b_hits b))
                        (Some (map (wt w) (b_hits b))) z z].
Proof.
  intros ex flag inv w n fx b x ux y uy val sx sy Ny Rd Ax Ay Ux Uy NE. unfold matplot_histogram.
  rewrite (points_1d_ok ex flag inv w fx b x ux val sx), (points_1d_ok ex flag inv w fx b y uy val sy); auto.
  2,3: intros v l [<-|[]] L; apply Rd; simpl; auto.
  rewrite filter_weighted. fold (weighted_hits w (b_hits b)). destruct (String.eqb_spec y "") as [Q|_]; [contradiction|].
  unfold make_matplot_histogram. cbn [get_figure_index].
  destruct (b_hits b) as [|h0 hs] eqn:E; [congruence|]. rewrite <- E.
  destruct (map (fun l => val x l / sx) (b_hits b)) as [|x0 xr] eqn:EX; [rewrite E in EX; discriminate|]. rewrite <- EX.
  rewrite !map_length, Nat.eqb_refl. cbn [negb]. eexists. eexists. split; [apply int_of_bins|]. split; [reflexivity|]. split; [reflexivity|].
  cbn [mp_artists]. rewrite (map_ext _ _ (hit_weight_wt w)). reflexivity.
Qed.
Print Assumptions C87_bunch_hexbin.

(** "The histogram of two variables shows how many hits there are (or their weight)" is refuted: hexbin takes the mean of the
    weights, so with equal weights every hexagon that is not empty shows the same. *)
Theorem C87_hexbin_refuted :
  forall ws v inside, (forall u, In u ws -> u = v) -> inside <> [] -> (forall i, In i inside -> (i < List.length ws)%nat) ->
    hexagon (Some ws) inside = v.
Proof.
  intros ws v inside W NE I. unfold hexagon.
  rewrite (rsum_ext _ (fun _ => v * 1)) by (intros i Hi; rewrite (W (nth i ws 0)); [lra|apply nth_In; auto]).
  rewrite rsum_scale.
  assert (E : rsum (fun _ : nat => 1) inside = INR (List.length inside)).
  { clear. induction inside as [|i l IH]; [reflexivity|]. cbn [rsum List.length]. rewrite S_INR, IH. lra. }
  rewrite E. field. apply not_0_INR. destruct inside; [congruence|discriminate].
Qed.
Print Assumptions C87_hexbin_refuted.

(** C87.  Bunch.matplot_scatter_graph shows the hits (see C86_scatter) as they are in the bunch; with the label of x on both axes. *)
Theorem C87_bunch_scatter :
  forall ex flag inv (w : RWorld) n fx (b : Bunch) x y ux uy weightless val sx sy,
    readings ex w (b_hits b) [x; y] val -> amplitude_axes x = None -> amplitude_axes y = None ->
    assoc units ux = Some sx -> assoc units uy = Some sy ->
    let r := matplot_scatter_graph ex flag inv w n fx b x y ux uy weightless in
    let sel := shown w weightless (b_hits b) in
    (sel = [] -> r = (n + 1, inl PIndexError)%Z) /\
    (sel <> [] -> exists p l, r = (n + 1, inr p)%Z /\ mp_figure p = (n + 1)%Z /\ mp_xlabel p = Some l /\ mp_ylabel p = Some l /\
       mp_artists p = [APoints (map (fun l => val x l / sx) sel) (map (fun l => val y l / sy) sel)]).
Proof.
  intros ex flag inv w n fx b x y ux uy weightless val sx sy Rd Ax Ay Ux Uy. cbv zeta. unfold matplot_scatter_graph.
  rewrite (scatter_points_ok ex flag inv w fx b x ux y uy weightless val sx sy Rd Ax Ay Ux Uy).
  set (sel := shown w weightless (b_hits b)). unfold make_matplot_scatter. cbn [get_figure_index]. rewrite !map_length, Nat.eqb_refl. split.
  - intros ->. reflexivity.
  - intros NE. destruct (Nat.eqb_spec (List.length sel) 0) as [Q|_]; [destruct sel; [congruence|discriminate]|].
    eexists. eexists. split; [reflexivity|]. repeat split; reflexivity.
Qed.
Print Assumptions C87_bunch_scatter.

(** C87.  Bunch.matplot_graph: if all bunches have both quantities, a line through one point for each, in the order of x; if one
    raises (for which root_graph goes on), so does matplot_graph, with the first of these errors. *)
Theorem C87_bunch_graph :
  forall ex flag (w : RWorld) n bs x xv y yv ux uy sx sy,
    assoc units ux = Some sx -> assoc units uy = Some sy ->
    (forall ps, Forall2 (fun fb p => bunch_value ex flag w x xv sx fb (fst p) /\ bunch_value ex flag w y yv sy fb (snd p)) bs ps -> bs <> [] ->
       exists p s xt yt, matplot_graph ex flag w n bs x xv y yv ux uy false = (n + 1, inr p)%Z /\ line_figure p (n + 1) s xt yt /\ by_x s ps) /\
    (forall b1 fb b2 e, bs = b1 ++ fb :: b2 ->
       (forall c, In c b1 -> exists u v, bunch_value ex flag w x xv sx c u /\ bunch_value ex flag w y yv sy c v) ->
       bunch_get ex flag (fst fb) w (snd fb) x xv = inl e ->
       matplot_graph ex flag w n bs x xv y yv ux uy false = (n, inl (PQuery e))).
Proof.
  intros ex flag w n bs x xv y yv ux uy sx sy Ux Uy.
  assert (PT : forall fb u v, bunch_value ex flag w x xv sx fb u -> bunch_value ex flag w y yv sy fb v ->
    point_of_bunch ex flag w fb x xv ux y yv uy = inr (Some u, Some v)).
  { intros fb u v Hu Hv. unfold point_of_bunch.
    rewrite (value_of_bunch_ok _ _ _ _ _ _ _ _ _ Ux Hu), (value_of_bunch_ok _ _ _ _ _ _ _ _ _ Uy Hv). reflexivity. }
  split.
  - intros ps F NE. unfold matplot_graph.
    assert (E : all_inr (map (fun fb => point_of_bunch ex flag w fb x xv ux y yv uy) bs) = inr (map (fun p => (Some (fst p), Some (snd p))) ps)).
    { clear NE. induction F as [|fb [u v] bs ps [Hu Hv] F IH]; [reflexivity|]. cbn [map all_inr]. rewrite (PT fb u v Hu Hv).
      cbn [bindE]. rewrite IH. reflexivity. }
    rewrite E. cbn [of_merr]. rewrite !map_map. cbn [fst snd]. rewrite (numbers_map (@fst R R)), (numbers_map (@snd R R)).
    match goal with |- context [make_matplot_graph n ?a ?b ?c ?d true] => destruct (C87_sort_refuted n a b c d true) as (p & s & E2 & L & B) end.
    { inversion F; subst; [congruence|discriminate]. } { rewrite !map_length. reflexivity. }
    rewrite E2. rewrite combine_split in B. exists p, s. eexists. eexists. split; [reflexivity|]. split; [exact L|exact B].
  - intros b1 fb b2 e -> H1 G. unfold matplot_graph.
    assert (E : all_inr (map (fun fb => point_of_bunch ex flag w fb x xv ux y yv uy) (b1 ++ fb :: b2)) = inl e).
    { clear - H1 G PT. induction b1 as [|c b1 IH].
      - cbn [app map all_inr]. unfold point_of_bunch, value_of_bunch. rewrite G. reflexivity.
      - cbn [app map all_inr]. destruct (H1 c (or_introl eq_refl)) as (u & v & Hu & Hv). rewrite (PT c u v Hu Hv). cbn [bindE].
        rewrite IH; [reflexivity|]. intros; apply H1; right; auto. }
    rewrite E. reflexivity.
Qed.
Print Assumptions C87_bunch_graph.

(** ---- the ratio of two histograms ---- *)

Lemma map_by_nth {A B} (f : A -> B) d l : map f l = map (fun i => f (nth i l d)) (seq 0 (List.length l)).
Proof.
  induction l as [|a l IH]; [reflexivity|]. cbn [map List.length seq nth]. f_equal. rewrite <- seq_shift, map_map. exact IH.
Qed.
Lemma nth_map_seq {A} (f : nat -> A) n i d : (i < n)%nat -> nth i (map f (seq 0 n)) d = f i.
Proof.
  intros I. rewrite (nth_indep _ d (f 0%nat)) by (rewrite map_length, seq_length; exact I). rewrite map_nth, seq_nth by exact I. reflexivity.
Qed.
Lemma centres_map e : centres e = map (fun i => (nth i e 0 + nth (S i) e 0) / 2) (seq 0 (List.length e - 1)).
Proof.
  induction e as [|a e IH]; [reflexivity|]. destruct e as [|b e]; [reflexivity|].
  change (centres (a :: b :: e)) with ((a + b) / 2 :: centres (b :: e)). rewrite IH.
  cbn [List.length]. replace (S (S (List.length e)) - 1)%nat with (S (List.length e)) by lia.
  replace (S (List.length e) - 1)%nat with (List.length e) by lia. cbn [seq map nth]. f_equal. rewrite <- (seq_shift _ 0), map_map. reflexivity.
Qed.
Lemma increasing_nth e : StronglySorted Rlt e -> forall i j, (i < j < List.length e)%nat -> nth i e 0 < nth j e 0.
Proof.
  induction 1 as [|a e S0 IH F]; intros i j [L1 L2]; [cbn in L2; lia|]. destruct j as [|j]; [lia|]. cbn [List.length] in L2.
  destruct i as [|i]; cbn [nth]; [|apply IH; lia]. rewrite Forall_forall in F. apply F, nth_In. lia.
Qed.
Lemma centre_bin e i k : StronglySorted Rlt e -> (i < List.length e - 1)%nat -> (k < List.length e - 1)%nat ->
  in_edge_bin e i ((nth k e 0 + nth (S k) e 0) / 2) = Nat.eqb k i.
Proof.
  intros S0 I K. unfold in_edge_bin.
  rewrite (nth_error_nth' e 0) by lia. rewrite (nth_error_nth' e 0) by lia.
  pose proof (increasing_nth e S0 k (S k) ltac:(lia)) as Mk. unfold rleb, rltb.
  destruct (Nat.eqb_spec k i) as [-> |N].
  - destruct (Rle_dec _ _); [|lra]. destruct (Rlt_dec _ _); [reflexivity|lra].
  - destruct (Nat.lt_ge_cases k i) as [L|L].
    + assert (Q : nth (S k) e 0 <= nth i e 0).
      { destruct (Nat.eq_dec (S k) i) as [-> |N2]; [lra|]. apply Rlt_le, (increasing_nth e S0). lia. }
      destruct (Rle_dec _ _); [lra|reflexivity].
    + assert (Q : nth (S i) e 0 <= nth k e 0).
      { destruct (Nat.eq_dec (S i) k) as [-> |N2]; [lra|]. apply Rlt_le, (increasing_nth e S0). lia. }
      destruct (Rlt_dec _ (nth (S i) e 0)); [lra|]. destruct (Rle_dec _ (nth (S i) e 0)); [lra|]. rewrite !andb_false_r. reflexivity.
Qed.
Lemma hist2d_app p xs ys ws xs' ys' ws' : List.length ys = List.length xs -> List.length ws = List.length xs ->
  hist2d_sum p (xs ++ xs') (ys ++ ys') (ws ++ ws') = hist2d_sum p xs ys ws + hist2d_sum p xs' ys' ws'.
Proof.
  revert ys ws. induction xs as [|x xs IH]; intros [|y ys] [|v ws] L1 L2; try discriminate; cbn [app hist2d_sum]; [lra|].
  rewrite IH by (cbn in L1, L2; lia). lra.
Qed.
Lemma hist2d_blocks {A} p (X Y W : A -> list R) l :
  (forall j, List.length (Y j) = List.length (X j) /\ List.length (W j) = List.length (X j)) ->
  hist2d_sum p (concat (map X l)) (concat (map Y l)) (concat (map W l)) = rsum (fun j => hist2d_sum p (X j) (Y j) (W j)) l.
Proof.
  intros H. induction l as [|j l IH]; [reflexivity|]. cbn [map concat rsum]. destruct (H j). rewrite hist2d_app by auto. rewrite IH. reflexivity.
Qed.
Lemma hist2d_row {A} p (X Y W : A -> R) l : hist2d_sum p (map X l) (map Y l) (map W l) = rsum (fun i => if p (X i) (Y i) then W i else 0) l.
Proof. induction l as [|i l IH]; [reflexivity|]. cbn [map hist2d_sum rsum]. rewrite IH. reflexivity. Qed.
Lemma rsum_pick (f : nat -> R) n i : (i < n)%nat -> rsum (fun k => if Nat.eqb k i then f k else 0) (seq 0 n) = f i.
Proof.
  intros I. replace n with (i + S (n - i - 1))%nat by lia. rewrite seq_app, rsum_app. cbn [seq rsum Nat.add]. rewrite Nat.eqb_refl.
  rewrite (PlotProofs.rsum_zero _ (seq 0 i)), (PlotProofs.rsum_zero _ (seq (S i) _)); [lra| |];
    intros k K; apply in_seq in K; destruct (Nat.eqb_spec k i); lia || lra.
Qed.
Lemma combine_blocks {A B C D} (r : B * C -> D) (F : A -> list B) (G : A -> list C) l : (forall j, List.length (F j) = List.length (G j)) ->
  map r (combine (concat (map F l)) (concat (map G l))) = concat (map (fun j => map r (combine (F j) (G j))) l).
Proof.
  intros H. induction l as [|j l IH]; [reflexivity|]. cbn [map concat]. rewrite <- IH, <- map_app. f_equal.
  generalize (H j). generalize (F j) (G j). intros f. induction f as [|u f IHf]; intros [|v g] L; try discriminate; cbn [app combine]; [reflexivity|].
  rewrite (IHf g) by (cbn in L; lia). reflexivity.
Qed.
Lemma combine_maps {A B C D} (r : B * C -> D) (f : A -> B) (g : A -> C) l : map r (combine (map f l) (map g l)) = map (fun a => r (f a, g a)) l.
Proof. induction l as [|a l IH]; [reflexivity|]. cbn [map combine]. rewrite IH. reflexivity. Qed.
Lemma block_length {A} (F : A -> list R) l m : (forall j, List.length (F j) = m) -> List.length (concat (map F l)) = (List.length l * m)%nat.
Proof. intros H. induction l as [|j l IH]; [reflexivity|]. cbn [map concat List.length]. rewrite app_length, IH, H. lia. Qed.
Lemma repeat_map {A} (a : A) n : repeat a n = map (fun _ => a) (seq 0 n).
Proof. generalize 0%nat. induction n as [|n IH]; intros k; [reflexivity|]. cbn [repeat seq map]. f_equal. apply IH. Qed.

(** A histogram of n rows of m columns. *)
Definition table (h : list (list R)) (n m : nat) : Prop := List.length h = n /\ forall row, In row h -> List.length row = m.

(** C87.  plot_hist2d_ratio of two histograms of the shape of the edges, which increase: bin (i, j) of the result is the ratio of
    the two contents, or on_nan where the second is 0. *)
Theorem C87_ratio :
  forall h1 h2 xedges yedges on_nan (nx ny : nat),
    table h1 nx ny -> table h2 nx ny -> (1 <= nx)%nat ->
    List.length xedges = S nx -> List.length yedges = S ny -> StronglySorted Rlt xedges -> StronglySorted Rlt yedges ->
    exists h, plot_hist2d_ratio h1 h2 xedges yedges on_nan = inr h /\ table h nx ny /\
      forall i j, (i < nx)%nat -> (j < ny)%nat ->
        let a := nth j (nth i h1 []) 0 in let b := nth j (nth i h2 []) 0 in let v := nth j (nth i h []) 0 in
        (b <> 0 -> v = a / b) /\ (b = 0 -> v = on_nan).
Proof.
  intros h1 h2 xe ye on_nan nx ny [L1 R1] [L2 R2] N LX LY SX SY. unfold plot_hist2d_ratio. rewrite L1, L2, Nat.eqb_refl. cbn [negb].
  assert (F1 : forallb (fun ab : list R * list R => Nat.eqb (List.length (fst ab)) (List.length (snd ab))) (combine h1 h2) = true).
  { apply forallb_forall. intros [u v] I. cbn [fst snd]. apply Nat.eqb_eq. rewrite R1, R2; auto; [apply in_combine_r in I|apply in_combine_l in I]; exact I. }
  rewrite F1. cbn [negb].
  assert (Hn : match h1 with [] => 0%nat | row :: _ => List.length row end = ny).
  { destruct h1 as [|row h1]; [cbn in L1; lia|]. apply R1. left; auto. }
  rewrite Hn.
  assert (F2 : forallb (fun row => Nat.eqb (List.length row) ny) h1 = true).
  { apply forallb_forall. intros row I. apply Nat.eqb_eq. auto. }
  rewrite F2. cbn [negb].
  assert (E3 : map (fun ab : R * R => ratio on_nan (fst ab) (snd ab)) (combine (flat_transpose h1 ny) (flat_transpose h2 ny)) =
    concat (map (fun j => map (fun i => ratio on_nan (nth j (nth i h1 []) 0) (nth j (nth i h2 []) 0)) (seq 0 nx)) (seq 0 ny))).
  { unfold flat_transpose. rewrite combine_blocks by (intros; cbv beta; rewrite !map_length; lia). f_equal. apply map_ext. intros j.
    rewrite (map_by_nth _ [] h1), (map_by_nth _ [] h2), L1, L2. rewrite combine_maps. reflexivity. }
  rewrite E3. replace (List.length ye - 1)%nat with ny by lia. replace (List.length xe - 1)%nat with nx by lia.
  rewrite (repeat_map (centres xe)).
  rewrite (centres_map ye), map_map. replace (List.length ye - 1)%nat with ny by lia.
  rewrite (centres_map xe). replace (List.length xe - 1)%nat with nx by lia.
  rewrite (map_ext (fun x => repeat ((nth x ye 0 + nth (S x) ye 0) / 2) nx) (fun x => map (fun _ : nat => (nth x ye 0 + nth (S x) ye 0) / 2) (seq 0 nx)))
    by (intros; apply repeat_map).
  rewrite (block_length _ _ nx) by (intros; cbv beta; rewrite map_length, seq_length; reflexivity).
  rewrite (block_length _ _ nx) by (intros; cbv beta; rewrite map_length, seq_length; reflexivity). rewrite Nat.eqb_refl.
  eexists. split; [reflexivity|]. unfold hist2d. replace (List.length ye - 1)%nat with ny by lia. replace (List.length xe - 1)%nat with nx by lia. split.
  - split; [rewrite map_length, seq_length; reflexivity|]. intros row I. apply in_map_iff in I. destruct I as (i & <- & _). rewrite map_length, seq_length. reflexivity.
  - intros i j I J. cbv zeta.
    rewrite (nth_map_seq _ nx i []), (nth_map_seq _ ny j 0) by assumption.
    rewrite hist2d_blocks by (intros; cbv beta; rewrite !map_length; lia).
    rewrite (rsum_ext _ (fun j' => if Nat.eqb j' j then ratio on_nan (nth j' (nth i h1 []) 0) (nth j' (nth i h2 []) 0) else 0)).
    + rewrite rsum_pick by exact J. unfold ratio. destruct (Req_EM_T (nth j (nth i h2 []) 0) 0); split; intros; congruence.
    + intros j' J'. apply in_seq in J'. rewrite hist2d_row.
      rewrite (rsum_ext _ (fun i' => if Nat.eqb i' i then if Nat.eqb j' j then ratio on_nan (nth j' (nth i' h1 []) 0) (nth j' (nth i' h2 []) 0) else 0 else 0)).
      * apply (rsum_pick (fun i' => if Nat.eqb j' j then ratio on_nan (nth j' (nth i' h1 []) 0) (nth j' (nth i' h2 []) 0) else 0)). exact I.
      * intros i' I'. apply in_seq in I'. rewrite !centre_bin by (auto; lia). destruct (Nat.eqb i' i), (Nat.eqb j' j); reflexivity.
Qed.
Print Assumptions C87_ratio.

(** C87.  Histograms of different shapes, or not of the size of the edges, are a ValueError. *)
Theorem C87_ratio_shape :
  forall h1 h2 xedges yedges on_nan,
    (List.length h1 <> List.length h2 \/
     (exists i, (i < List.length h1)%nat /\ (i < List.length h2)%nat /\ List.length (nth i h1 []) <> List.length (nth i h2 [])) \/
     exists nx ny, table h1 nx ny /\ table h2 nx ny /\ (1 <= nx)%nat /\ (nx * ny <> (List.length xedges - 1) * (List.length yedges - 1))%nat) ->
    plot_hist2d_ratio h1 h2 xedges yedges on_nan = inl PValueError.
Proof.
  intros h1 h2 xe ye on_nan H. unfold plot_hist2d_ratio.
  destruct (Nat.eqb_spec (List.length h1) (List.length h2)) as [L|L]; cbn [negb]; [|reflexivity].
  destruct (forallb (fun ab : list R * list R => Nat.eqb (List.length (fst ab)) (List.length (snd ab))) (combine h1 h2)) eqn:F; cbn [negb]; [|reflexivity].
  rewrite forallb_forall in F.
  destruct (forallb _ h1) eqn:F2; cbn [negb]; [|reflexivity].
  destruct H as [H|[(i & I1 & I2 & H)|(nx & ny & [L1 R1] & [L2 R2] & N & H)]]; [contradiction| |].
  - exfalso. apply H. apply Nat.eqb_eq. apply (F (nth i h1 [], nth i h2 [])). rewrite <- (combine_nth h1 h2 i [] []) by exact L.
    apply nth_In. rewrite combine_length. lia.
  - assert (Hn : match h1 with [] => 0%nat | row :: _ => List.length row end = ny).
    { destruct h1 as [|row h1]; [cbn in L1; lia|]. apply R1. left; auto. }
    rewrite Hn.
    match goal with |- (if Nat.eqb ?u ?v then _ else _) = _ => destruct (Nat.eqb_spec u v) as [Q|_]; [|reflexivity] end.
    exfalso. apply H. rewrite (repeat_map (centres xe)) in Q. rewrite (block_length _ _ (List.length xe - 1)) in Q.
    + rewrite map_length, combine_length in Q. unfold flat_transpose in Q.
      rewrite (block_length _ _ (List.length h1)) in Q by (intros; apply map_length).
      rewrite (block_length _ _ (List.length h2)) in Q by (intros; apply map_length). rewrite !seq_length, L1, L2, Nat.min_id in Q. lia.
    + intros _. rewrite centres_map, map_length, seq_length. reflexivity.
Qed.
Print Assumptions C87_ratio_shape.

(** ---- cases ---- *)

(** Values 0, 1 and 3 of weights 1, 2 and 1 in three bins: points at 1/2 and 3/2; the weight of 3 is not seen. *)
Example C87_histogram_ex :
  exists p cx cy, wrapper_histogram 4 [0; 1; 3] "x" 3 [] "" 0 [1; 2; 1] None = (5%Z, inr p) /\ mp_artists p = [ALine cx cy] /\
    cx = [1 / 2; 3 / 2] /\ cy = [1; 2] /\ mp_figure p = 5%Z.
Proof.
  destruct (C87_histogram 4 [0; 1; 3] "x" 3 [] "" 0 [1; 2; 1] None) as (F & (lo & hi & c & AX & LH & LC & CS & _ & H) & _); [discriminate|discriminate|lia|left; reflexivity|].
  assert (LU : lo = 0 /\ hi = 3).
  { destruct AX as (a & b & A & B & AX).
    rewrite (least_unique a 0 [0; 1; 3] A) in AX by (split; [cbn; auto|intros v [<-|[<-|[<-|[]]]]; lra]).
    rewrite (largest_unique b 3 [0; 1; 3] B) in AX by (split; [cbn; auto|intros v [<-|[<-|[<-|[]]]]; lra]). lra. }
  destruct LU as [-> ->]. change (Z.to_nat 3) with 3%nat in *. change (INR 3) with (1 + 1 + 1) in H.
  assert (C : nth 0 c 0 = 1 /\ nth 1 c 0 = 2).
  { pose proof (CS 0%nat ltac:(lia)) as C0. pose proof (CS 1%nat ltac:(lia)) as C1. cbn [fill_weights combine] in C0, C1.
    unfold np_bin in C0, C1. cbv zeta in C0, C1. change (INR 3) with (1 + 1 + 1) in *. change (INR 2) with (1 + 1) in *. change (INR 1) with 1 in *. change (INR 0) with 0 in *.
    split.
    - rewrite (sum_where_unique _ _ _ _ (snd (0, 1) + 0) C0); [cbn; lra|].
      apply (sum_in _ snd (0, 1)); [cbn [fst]; lra|]. apply sum_out; [cbn [fst]; intros [_ [Q|[Q _]]]; [lra|discriminate]|].
      apply sum_out; [cbn [fst]; intros [_ [Q|[Q _]]]; [lra|discriminate]|]. constructor.
    - rewrite (sum_where_unique _ _ _ _ (snd (1, 2) + 0) C1); [cbn; lra|]. apply sum_out; [cbn [fst]; lra|].
      apply (sum_in _ snd (1, 2)); [cbn [fst]; lra|].
      apply sum_out; [cbn [fst]; intros [_ [Q|[Q _]]]; [lra|discriminate]|]. constructor. }
  destruct C as [C0 C1].
  assert (E : snd (wrapper_histogram 4 [0; 1; 3] "x" 3 [] "" 0 [1; 2; 1] None) = inr (mkMPlot 5 [ALine [0 + (0 + 1 / 2) * ((3 - 0) / (1 + 1 + 1)); 0 + (1 + 1 / 2) * ((3 - 0) / (1 + 1 + 1))] [1; 2]] (Some "x") None None None)).
  { rewrite (H 0%nat ltac:(lia)); [|rewrite C0, Rabs_R1; lra|intros j J; lia]. cbn [seq map Nat.sub]. rewrite C0, C1. reflexivity. }
  destruct (wrapper_histogram _ _ _ _ _ _ _ _ _) as [m r]. cbn [fst snd] in F, E. subst m r.
  eexists. eexists. eexists. split; [reflexivity|]. split; [reflexivity|]. split; [|split; reflexivity]. f_equal; [lra|f_equal; lra].
Qed.

(** Two lists of points, the first out of order. *)
Example C87_multigraph_ex :
  exists p, make_matplot_multigraph 0 [[2; 1]; [5]] "x" [[3; 4]; [6]] "y" = (1%Z, inr (p, [[1; 2]; [5]], [[4; 3]; [6]])) /\
    mp_artists p = [ALine [1; 2] [4; 3]; ALine [5] [6]].
Proof.
  destruct (C87_multigraph 0 [[2; 1]; [5]] "x" [[3; 4]; [6]] "y") as (p & ss & a & b & c & d & E & F & _ & A & _); [repeat constructor|].
  inversion F as [|s1 ? ss1 ? B1 F1]; subst. inversion F1 as [|s2 ? ss2 ? B2 F2]; subst. inversion F2; subst.
  cbn [fst snd combine] in B1, B2. apply by_x_two in B1; [|cbn; lra]. destruct B2 as (B2 & _). apply Permutation_sym, Permutation_length_1_inv in B2. subst.
  exists p. split; [exact E|exact A].
Qed.

(** A history with a call that fails, a call for figure 7 and two others. *)
Example C87_figures_ex :
  map (fun cp => mp_figure (snd cp)) (mcalls 0 [MScatter [1] "" [1] ""; MScatter [] "" [] ""; WScatter [1] "" [1] "" (Some 7%Z); MScatter [1] "" [1] ""]) = [1; 7; 3]%Z.
Proof. reflexivity. Qed.

(** The bunch of two hits: nothing to be seen. *)
Example C87_small_bunch_ex :
  exists p, snd (matplot_histogram no_extra false (fun _ => None) (wrun ex_two) 0 no_fixed ex_bunch "x" "mm" "" "") = inr p /\ mp_artists p = [ALine [] []].
Proof.
  apply (C87_small_bunch_refuted no_extra false (fun _ => None) (wrun ex_two) 0 no_fixed ex_bunch "x" "mm" "" (stored_val (wrun ex_two)) 1).
  - intros v l [<-|[]] L. apply ex_two_readings; auto. left; auto.
  - reflexivity.
  - cbn. f_equal; try lra.
  - discriminate.
  - unfold weighted_hits. cbn [b_hits ex_bunch append bunch_new app filter]. destruct (Req_EM_T (wt (wrun ex_two) 0) 0), (Req_EM_T (wt (wrun ex_two) 1) 0); cbn; lia.
  - rewrite ex_two_total, Rabs_right by lra. lra.
Qed.

(** A graph of the mean of x against the weight for this bunch, twice; and with an empty bunch, which has no mean. *)
Example C87_bunch_graph_ex :
  (exists p s xt yt, matplot_graph no_extra false (wrun ex_two) 0 [(no_fixed, ex_bunch); (no_fixed, ex_bunch)] "mean" ["x"] "bunch_weight" [] "mm" "" false = (1%Z, inr p) /\
     line_figure p 1 s xt yt /\ s = [(0, 2); (0, 2)]) /\
  matplot_graph no_extra false (wrun ex_two) 0 [(no_fixed, ex_bunch); (no_fixed, bunch_new)] "mean" ["x"] "bunch_weight" [] "mm" "" false = (0%Z, inl (PQuery MZeroDivision)).
Proof.
  assert (Um : assoc units "mm" = Some 1) by (cbn; f_equal; try lra). assert (Un : assoc units "" = Some 1) by (cbn; f_equal; try lra).
  destruct (C78_get_moments no_extra false (wrun ex_two) ex_bunch "x" [] (stored_val (wrun ex_two)) ex_two_usable) as (M & _ & _ & W).
  { intros v l [<-|[]] L. apply ex_two_readings; auto. left; auto. }
  rewrite ex_two_average in M. unfold stored_val in M. rewrite ex_two_x0, ex_two_x1 in M. cbn [real_of] in M.
  specialize (W []). rewrite ex_two_total in W.
  assert (V : bunch_value no_extra false (wrun ex_two) "mean" ["x"] 1 (no_fixed, ex_bunch) 0 /\ bunch_value no_extra false (wrun ex_two) "bunch_weight" [] 1 (no_fixed, ex_bunch) 2).
  { split; [exists ((4 + -4) / 2)|exists 2]; (split; [first [exact M|exact W]|lra]). }
  split.
  - destruct (C87_bunch_graph no_extra false (wrun ex_two) 0 [(no_fixed, ex_bunch); (no_fixed, ex_bunch)] "mean" ["x"] "bunch_weight" [] "mm" "" 1 1 Um Un) as [H _].
    destruct (H [(0, 2); (0, 2)]) as (p & s & xt & yt & E & L & B); [repeat constructor; apply V|discriminate|].
    exists p, s, xt, yt. split; [exact E|]. split; [exact L|]. destruct B as (B & _). apply Permutation_sym, Permutation_length_2_inv in B. destruct B; auto.
  - destruct (C87_bunch_graph no_extra false (wrun ex_two) 0 [(no_fixed, ex_bunch); (no_fixed, bunch_new)] "mean" ["x"] "bunch_weight" [] "mm" "" 1 1 Um Un) as [_ H].
    apply (H [(no_fixed, ex_bunch)] (no_fixed, bunch_new) []); [reflexivity| |].
    + intros c [<-|[]]. exists 0, 2. exact V.
    + unfold bunch_get. cbn [String.eqb Ascii.eqb Bool.eqb first_of bindE fst snd].
      assert (Z : Rabs (total_weight (wrun ex_two) (b_hits bunch_new)) < 1 / 1000000000)
        by (unfold total_weight; cbn [b_hits bunch_new rsum]; rewrite Rabs_R0; lra).
      destruct (C22_zero_weight_raises no_extra no_fixed (wrun ex_two) bunch_new ["x"] [] (fun l (F : In l []) => match F with end) Z) as [_ Mz].
      rewrite (Mz "x" [] eq_refl eq_refl). reflexivity.
Qed.

(** One row of two columns: 1/2, and 7 for 2/0. *)
Example C87_ratio_ex : exists a b, plot_hist2d_ratio [[1; 2]] [[2; 0]] [0; 1] [0; 1; 2] 7 = inr [[a; b]] /\ a = 1 / 2 /\ b = 7.
Proof.
  destruct (C87_ratio [[1; 2]] [[2; 0]] [0; 1] [0; 1; 2] 7 1 2) as (h & E & [L S0] & H).
  - split; [reflexivity|]. intros row [<-|[]]; reflexivity.
  - split; [reflexivity|]. intros row [<-|[]]; reflexivity.
  - lia.
  - reflexivity.
  - reflexivity.
  - repeat constructor; lra.
  - repeat constructor; lra.
  - destruct h as [|row [|? ?]]; try discriminate. specialize (S0 row (or_introl eq_refl)). destruct row as [|a [|b [|? ?]]]; try discriminate.
    exists a, b. split; [exact E|]. destruct (H 0%nat 0%nat ltac:(lia) ltac:(lia)) as [H1 _]. destruct (H 0%nat 1%nat ltac:(lia) ltac:(lia)) as [_ H2].
    cbn [nth] in H1, H2. split; [apply H1; lra|apply H2; reflexivity].
Qed.
