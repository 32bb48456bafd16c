(** Properties C41, C43 and C71: the Voronoi weighting. *)
From Coq Require Import Reals ZArith List Bool String Lia Lra Sorting.Sorted.
From Verif Require Import Num WeightModel HitcoreModel HitcoreSpec HitcoreProofs BunchModel BunchSpec BunchProofs
  HitPyModel HitPySpec HitPyProofs MomentModel MomentSpec MomentProofs MomentProps StatProofs BunchNumModel CommonModel CommonSpec
  CommonProofs CommonProps GridProofs
  EllipseModel DetProofs EllipseProofs MatProofs TransformModel TransformProofs VoronoiModel VoronoiSpec VoronoiProofs.
Import ListNotations.
Open Scope string_scope.
Open Scope list_scope.
Open Scope R_scope.

(** ---- C41 --------------------------------------------------------------------------- *)

(** C41.  cut_on_bound returns the points on or inside the ellipse, in order, and their
    positions in the input, for any number of points in any dimension. *)
Theorem C41_cut : forall be d points, bound_dim d be -> (forall p, In p points -> List.length p = d) ->
  exists kept not_cut, cut_on_bound be points = inr (kept, not_cut) /\
    StronglySorted lt not_cut /\
    (forall k, In k not_cut <-> exists p, nth_error points k = Some p /\ radius (be_inv be) (be_mean be) p <= 1) /\
    map Some kept = map (nth_error points) not_cut.
Proof.
  intros be d points (_ & Hm & Hi & _) Hd. do 2 eexists. split; [exact (cut_spec be d points Hm Hi Hd)|].
  split; [apply cut_ids_sorted|]. split; [|exact (cut_ids_kept be points [])].
  intros k. rewrite cut_ids_In. rewrite Nat.sub_0_r. unfold inb. split.
  - intros (p & _ & E & H). exists p. destruct (Rle_dec _ 1); [auto|discriminate].
  - intros (p & E & H). exists p. destruct (Rle_dec _ 1); [repeat split; auto; lia|contradiction].
Qed.

Lemma minus_zero n : forall p, List.length p = n -> minus p (repeat 0 n) = p.
Proof.
  induction n as [|n IH]; intros [|x p] L; try discriminate; auto. cbn [List.length] in L. unfold minus.
  cbn [repeat combine map]. f_equal; [cbn [fst snd]; lra|]. apply IH. lia.
Qed.
Lemma vadd_minus : forall p m, List.length p = List.length m -> minus (vadd p m) m = p.
Proof.
  induction p as [|x p IH]; intros [|y m] L; try discriminate; auto. unfold minus, vadd. cbn [combine map fst snd].
  f_equal; [lra|]. apply IH. cbn [List.length] in L. lia.
Qed.
Lemma vadd_length p m : List.length p = List.length m -> List.length (vadd p m) = List.length m.
Proof. intros H. unfold vadd. rewrite map_length, combine_length. lia. Qed.
Lemma all_some_Some {A} (l : list A) : all_some (map Some l) = Some l.
Proof. induction l as [|x l IH]; [reflexivity|]. cbn [map all_some]. rewrite IH. reflexivity. Qed.

Lemma shape_is_square d m : shape d d m -> is_square_n d m = true.
Proof.
  intros [L H]. unfold is_square_n. rewrite L, Nat.eqb_refl. cbn [andb]. apply forallb_forall. intros r Hr.
  apply Nat.eqb_eq. auto.
Qed.

(** C41.  The constructor: for a positive definite ellipse the boundary points are on the
    ellipse around the mean (so that none of them would be cut), one in each direction of a
    grid with n points in each dimension. *)
Theorem C41_boundary : forall inv ellipse minv mean n d,
  List.length mean = d -> positive_definite d ellipse -> inv ellipse = Some minv -> inverse_of d ellipse minv ->
  (2 <= n)%Z ->
  exists be, bounding_ellipse inv ellipse mean (DInt n) = inr be /\
    bound_dim d be /\ be_mean be = mean /\ be_inv be = minv /\
    (forall p, In p (be_points be) -> radius minv mean p = 1 /\
       exists v a, In v (make_grid d (Z.to_nat n)) /\ 0 < a /\ minus p mean = map (fun x => x * a) v) /\
    cut_on_bound be (be_points be) = inr (be_points be, seq 0 (List.length (be_points be))).
Proof.
  intros inv ellipse minv mean n d Lm PD E I Hn. pose proof PD as [Sh _]. pose proof Sh as [Le _].
  pose proof (inverse_positive _ _ _ PD I) as [Si _].
  destruct (C35_on_ellipse inv (Z.to_nat n) ellipse minv (repeat 0 d) d) as (pts & Es & Hp); auto;
    [apply repeat_length|lia|].
  assert (Es' : make_shell inv (Z.to_nat n) ellipse None = inr (map Some pts)).
  { unfold make_shell in *. rewrite Le in *. exact Es. }
  unfold bounding_ellipse. rewrite (proj2 (Z.ltb_ge n 1)) by lia. rewrite Le, (shape_is_square d) by auto.
  rewrite Lm, Nat.eqb_refl. cbn [negb]. rewrite Es', all_some_Some, E.
  set (be := mkBound _ _ _ _). exists be. split; [reflexivity|].
  assert (Bd : bound_dim d be).
  { repeat split; cbn [be_dim be_mean be_inv be_points be]; auto; try apply Si. intros p Hq. apply in_map_iff in Hq.
    destruct Hq as (q & <- & Hq). destruct (Hp q Hq) as (Lq & _). rewrite vadd_length; congruence. }
  assert (Hr : forall p, In p (be_points be) -> radius minv mean p = 1 /\
       exists v a, In v (make_grid d (Z.to_nat n)) /\ 0 < a /\ minus p mean = map (fun x => x * a) v).
  { intros p Hq. apply in_map_iff in Hq. destruct Hq as (q & <- & Hq). destruct (Hp q Hq) as (Lq & F & v & a & G).
    rewrite minus_zero in F, G by auto. unfold radius. rewrite vadd_minus by congruence. split; eauto. }
  split; [exact Bd|]. repeat split; auto; try apply Hr; auto.
  destruct Bd as (_ & Bm & Bi & Bp). rewrite (cut_spec be d) by auto.
  assert (G : forall ps i, (forall p, In p ps -> inb be p = true) ->
    filter (inb be) ps = ps /\ cut_ids be i ps = seq i (List.length ps)).
  { induction ps as [|p ps IH]; intros i H; [auto|]. cbn [filter cut_ids List.length seq]. rewrite (H p (or_introl eq_refl)).
    destruct (IH (S i)) as [-> ->]; [intros; apply H; right; auto|]. auto. }
  destruct (G (be_points be) 0%nat) as [-> ->]; auto. intros p H. destruct (Hr p H) as [F _]. unfold inb.
  change (be_inv be) with minv. change (be_mean be) with mean. rewrite F. destruct (Rle_dec 1 1); [auto|lra].
Qed.

(** C41.  Numbers of points that are not integers or less than 1, ellipses that are not
    square and means of another length are rejected; nothing else is. *)
Theorem C41_rejects : forall inv ellipse mean n,
  (n = DOther \/ (exists k, n = DInt k /\ (k < 1)%Z) \/
   ~ shape (List.length ellipse) (List.length ellipse) ellipse \/ List.length mean <> List.length ellipse) ->
  bounding_ellipse inv ellipse mean n = inl VValueError.
Proof.
  intros inv ellipse mean n H. unfold bounding_ellipse. destruct n as [k|]; auto.
  destruct (k <? 1)%Z eqn:Ek; auto. destruct (is_square_n _ _) eqn:Es; cbn [negb]; auto.
  destruct (Nat.eqb _ _) eqn:Em; cbn [negb]; auto. exfalso. apply Z.ltb_ge in Ek. apply Nat.eqb_eq in Em.
  destruct H as [H|[(k' & H & Hk)|[H|H]]]; [discriminate| | |contradiction].
  - injection H as <-. lia.
  - apply H. unfold is_square_n in Es. apply andb_prop in Es. destruct Es as [_ F]. rewrite forallb_forall in F.
    split; auto. intros r Hr. apply Nat.eqb_eq. auto.
Qed.

(** The message of the constructor asks for more than one point in each dimension; one is
    accepted, and gives a boundary that is a single point. *)
Theorem C41_one_point_refuted : forall inv ellipse minv mean d,
  List.length mean = d -> (1 <= d)%nat -> positive_definite d ellipse -> inv ellipse = Some minv ->
  inverse_of d ellipse minv ->
  exists be p, bounding_ellipse inv ellipse mean (DInt 1) = inr be /\ be_points be = [p].
Proof.
  intros inv ellipse minv mean d Lm Hd PD E I. pose proof PD as [Sh _]. pose proof Sh as [Le _].
  destruct (C35_single_refuted inv ellipse minv (repeat 0 d) d) as (p & Es); auto; [apply repeat_length|].
  assert (Es' : make_shell inv (Z.to_nat 1) ellipse None = inr [Some p]).
  { unfold make_shell in *. rewrite Le in *. exact Es. }
  unfold bounding_ellipse. replace (1 <? 1)%Z with false by reflexivity. rewrite Le, (shape_is_square d) by auto.
  rewrite Lm, Nat.eqb_refl. cbn [negb]. rewrite Es'. cbn [all_some]. rewrite E. do 2 eexists. split; reflexivity.
Qed.

(** Three points, a unit circle around (4, 1): the second is outside, the third on it. *)
Definition ex_bound : BoundingEllipse :=
  mkBound 2 [[5; 1]; [3; 1]; [4; 2]; [4; 0]] [[1; 0]; [0; 1]] [4; 1].
Lemma ex_bound_dim : bound_dim 2 ex_bound.
Proof.
  repeat split; auto.
  - intros r [<-|[<-|[]]]; auto.
  - intros p [<-|[<-|[<-|[<-|[]]]]]; auto.
Qed.
Lemma ex_radius x y : radius [[1; 0]; [0; 1]] [4; 1] [x; y] = (x - 4) * (x - 4) + (y - 1) * (y - 1).
Proof. unfold radius, form, ent, minus. simpl. lra. Qed.

Example C41_case : exists kept, cut_on_bound ex_bound [[4; 1]; [-4; 3]; [4; 2]] = inr (kept, [0%nat; 2%nat]).
Proof.
  destruct ex_bound_dim as (_ & Hm & Hi & _).
  rewrite (cut_spec ex_bound 2 _ Hm Hi) by (intros p [<-|[<-|[<-|[]]]]; auto).
  eexists. f_equal. f_equal. cbn [cut_ids]. unfold inb. cbn [be_inv be_mean ex_bound].
  rewrite !ex_radius. repeat match goal with |- context [Rle_dec ?a ?b] => destruct (Rle_dec a b); try lra end.
  reflexivity.
Qed.

Example C41_boundary_case : exists be,
  bounding_ellipse (fun m => Some m) [[1; 0]; [0; 1]] [5; 7] (DInt 3) = inr be /\
  forall p, In p (be_points be) -> radius [[1; 0]; [0; 1]] [5; 7] p = 1.
Proof.
  destruct (C41_boundary (fun m => Some m) [[1; 0]; [0; 1]] [[1; 0]; [0; 1]] [5; 7] 3 2) as (be & E & _ & _ & _ & H & _);
    auto using identity2_pd, identity2_inv; try lia.
  exists be. split; auto. intros p Hp. apply (H p Hp).
Qed.

(** ---- C71 --------------------------------------------------------------------------- *)

(** C71.  The content computed from the Cayley-Menger determinant of a simplex is its volume,
    |det (x_1 - x_0, ..., x_d - x_0)| / d!, in every dimension; degenerate ones count 0. *)
Theorem C71_simplex : forall d c s, add_simplex d c s = c + volume d s.
Proof. exact add_simplex_spec. Qed.

(** C71.  HullContent (Python 2) gives, for each of the first n points of a tesselation and in
    their order, the sum of the volumes of the simplices its tile is divided into; 0 for tiles
    that reach infinity. *)
Theorem C71_tiles : forall delaunay t n, tesselates delaunay t n ->
  exists cs, hull_content Python2 delaunay t n = inr cs /\ List.length cs = n /\
    forall i c, nth_error cs i = Some c -> content_of delaunay t i c /\ 0 <= c.
Proof.
  intros delaunay t n H. destruct (hull_spec delaunay t n H) as (cs & E & F). exists cs. split; [exact E|].
  split; [apply Forall2_length_eq in F; rewrite seq_length in F; auto|].
  assert (G : forall k m cs i c, Forall2 (content_of delaunay t) (seq k m) cs -> nth_error cs i = Some c ->
    content_of delaunay t (k + i) c).
  { intros k m. revert k. induction m as [|m IH]; intros k cs' i c F' Ei; cbn [seq] in F'; inversion F'; subst;
      destruct i as [|i]; cbn [nth_error] in Ei; try discriminate.
    - injection Ei as <-. rewrite Nat.add_0_r. auto.
    - rewrite Nat.add_succ_r, <- Nat.add_succ_l. eapply IH; eauto. }
  intros i c Ei. pose proof (G 0%nat n cs i c F Ei) as C. split; [exact C|].
  destruct C as [k region Ek Er Ho|k region points simplices Ek Er Ne No T D]; [lra|].
  clear. induction simplices as [|s l IH]; cbn [rsum]; [lra|].
  assert (0 <= volume (List.length (hd [] points)) (map (fun k => nth k points []) s)); [|lra].
  unfold volume, Rdiv. apply Rmult_le_pos; [apply Rabs_pos|]. left. apply Rinv_0_lt_compat, INR_fact_lt_0.
Qed.

(** With Python 3 the content of a closed tile cannot be computed. *)
Theorem C71_python3_refuted : forall delaunay region points s l,
  region <> [] -> ~ In (-1)%Z region -> delaunay points = Some (s :: l) ->
  tile_content Python3 delaunay region points = inl VNameError.
Proof.
  intros delaunay region points s l Ne No E. unfold tile_content.
  destruct (existsb (Z.eqb (-1)) region) eqn:Ex.
  { apply existsb_exists in Ex. destruct Ex as (z & Hz & Ez). apply Z.eqb_eq in Ez. subst z. contradiction. }
  destruct region; [congruence|]. cbn [orb List.length Nat.eqb]. rewrite E. reflexivity.
Qed.

(** A right triangle has area 1/2, and a tetrahedron at the axes volume 1/6. *)
Example C71_triangle : add_simplex 2 10 [[0; 0]; [1; 0]; [0; 1]] = 10 + 1 / 2.
Proof.
  rewrite C71_simplex. f_equal. unfold volume. cbn. match goal with |- Rabs ?a / _ = _ => replace a with 1 by lra end. rewrite Rabs_R1. lra.
Qed.
Example C71_tetrahedron : volume 3 [[1; 1; 1]; [2; 1; 1]; [1; 2; 1]; [1; 1; 2]] = 1 / 6.
Proof.
  unfold volume. cbn. match goal with |- Rabs ?a / _ = _ => replace a with 1 by lra end. rewrite Rabs_R1. lra.
Qed.

(** The tesselation of (4, 1) and the four boundary points of ex_bound: the tile of the first
    is a square, the others reach infinity. *)
Definition ex_tess : Tesselation :=
  mkTess [0; 1; 2; 3; 4]%nat [[0; 1; 2; 3]; [-1; 1; 2]; [-1; 0; 3]; [-1; 2; 3]; [-1; 0; 1]]%Z
    [[7 / 2; 1 / 2]; [9 / 2; 1 / 2]; [9 / 2; 3 / 2]; [7 / 2; 3 / 2]].
Definition ex_delaunay (_ : list (list R)) : option (list (list nat)) := Some [[0; 1; 2]; [0; 2; 3]]%nat.

Lemma ex_tesselates : tesselates ex_delaunay ex_tess 5.
Proof.
  intros i Hi. do 5 (destruct i as [|i];
    [do 2 eexists; split; [reflexivity|]; split; [reflexivity|]; split;
     [intros j Hj; cbn in Hj; cbn; intuition lia|]; split; [discriminate|]; intros ? _; discriminate|]). lia.
Qed.

Lemma ex_content c : content_of ex_delaunay ex_tess 0 c -> c = 1.
Proof.
  intros H. inversion H as [k region Ek Er Ho|k region points simplices Ek Er Ne No T D]; subst.
  - cbn in Ek. injection Ek as <-. cbn in Er. injection Er as <-. destruct Ho as [Ho|Ho]; [discriminate|].
    cbn in Ho. intuition discriminate.
  - cbn in Ek. injection Ek as <-. cbn in Er. injection Er as <-. injection D as <-.
    assert (P : points = vertices ex_tess).
    { repeat match goal with T : tile_vertices _ _ _ |- _ => unfold tile_vertices in T
        | T : Forall2 _ _ _ |- _ => inversion T; clear T; subst end.
      repeat match goal with H : _ /\ _ |- _ => destruct H end.
      repeat match goal with H : nth_error _ _ = Some _ |- _ => cbn in H; injection H as <- end. reflexivity. }
    subst points. cbn [rsum]. unfold volume. cbn.
    repeat match goal with |- context [Rabs ?a] => replace (Rabs a) with 1 by (rewrite Rabs_pos_eq; lra) end. lra.
Qed.

Example C71_square : exists cs, hull_content Python2 ex_delaunay ex_tess 5 = inr cs /\ nth 0 cs 0 = 1 /\ nth 1 cs 5 = 0.
Proof.
  destruct (C71_tiles _ _ _ ex_tesselates) as (cs & E & L & H). exists cs. split; auto.
  destruct cs as [|c0 [|c1 cs]]; try discriminate. cbn [nth]. split; [apply ex_content, (H 0%nat); reflexivity|].
  destruct (H 1%nat c1 eq_refl) as [C _].
  inversion C as [k region Ek Er Ho|k region points simplices Ek Er Ne No T D]; subst; auto.
  cbn in Ek. injection Ek as <-. cbn in Er. injection Er as <-. exfalso. apply No. cbn. auto.
Qed.

(** ---- C43 --------------------------------------------------------------------------- *)

(** C43.  The constructor keeps what it is given; without a mean it is 0. *)
Theorem C43_constructor : forall elementwise inv vars ellipse minv mean bound,
  shape (List.length vars) (List.length vars) ellipse -> inv ellipse = Some minv ->
  match mean with Some m => List.length m = List.length vars /\ (elementwise = false \/ List.length m = 1%nat) | None => True end ->
  match bound with Some be => be_dim be = List.length vars | None => True end ->
  exists v, voronoi_weighting elementwise inv vars ellipse mean bound = inr v /\
    v_variables v = vars /\ v_inv v = minv /\ v_det v = det ellipse /\ v_bound v = bound /\
    v_mean v = match mean with Some m => m | None => repeat 0 (List.length vars) end.
Proof.
  intros ew inv vars ellipse minv mean bound Sh E Hm Hb. unfold voronoi_weighting. rewrite E, (shape_is_square _ _ Sh).
  assert (A : match mean with Some m => (ew && Nat.ltb 1 (List.length m))%bool | None => false end = false).
  { destruct mean as [m|]; auto. destruct Hm as [_ [->| ->]]; auto. apply andb_false_r. }
  rewrite A. assert (L : List.length match mean with Some m => m | None => repeat 0 (List.length vars) end = List.length vars).
  { destruct mean; [apply Hm|apply repeat_length]. }
  rewrite L, Nat.eqb_refl. cbn [negb].
  replace (match bound with Some be => negb (Nat.eqb (be_dim be) (List.length vars)) | None => false end) with false.
  - eexists. split; [reflexivity|]. cbn. auto.
  - destruct bound as [be|]; auto. rewrite Hb, Nat.eqb_refl. reflexivity.
Qed.

(** Where comparing an array with None gives an array (numpy 1.13 and later), no mean for two
    or more variables is accepted. *)
Theorem C43_mean_refuted : forall inv vars ellipse m bound, (2 <= List.length m)%nat ->
  voronoi_weighting true inv vars ellipse (Some m) bound = inl VValueError.
Proof.
  intros inv vars ellipse m bound H. unfold voronoi_weighting. destruct m as [|a [|b m]]; cbn [List.length] in H; try lia. reflexivity.
Qed.

Lemma nth_error_skipn {A} n : forall (l : list A) j, nth_error (skipn n l) j = nth_error l (n + j).
Proof. induction n as [|n IH]; intros [|x l] j; auto. destruct j; reflexivity. cbn. apply IH. Qed.

(** C43.  apply_weights (Python 2): for any bunch of hits with weights of their own, any
    number of variables, with or without a bound, local or global weights: hit number i of
    those inside the bound gets the probability density at its point times the content of its
    tile; the other hits of the bunch get 0; the other kind of weight, the coordinates, and
    the hits that are not in the bunch stay as they were. *)
Theorem C43_weights : forall extra voronoi delaunay v d (p : list (WOp RNum)) b g val t,
  let w := wrun p in
  let inside := inside_hits (v_bound v) (v_variables v) val (b_hits b) in
  weighting_dim d v -> b_hits b <> [] -> (forall l, In l (b_hits b) -> is_hit w l) ->
  readings extra w (b_hits b) (v_variables v) val -> own_weights g w (b_hits b) ->
  voronoi (map (point_of (v_variables v) val) inside ++ boundary (v_bound v)) = Some t ->
  tesselates delaunay t (List.length inside) ->
  exists w', apply_weights extra voronoi delaunay Python2 v w b g = (w', None) /\
    (forall i l, nth_error inside i = Some l -> exists c, content_of delaunay t i c /\
       hit_get w' l (weight_name g) =
       Some (@PFloat RNum (gaussian d (v_mean v) (v_inv v) (v_det v) (point_of (v_variables v) val l) * c))) /\
    (forall l, In l (b_hits b) -> ~ In l inside -> hit_get w' l (weight_name g) = Some (@PFloat RNum 0)) /\
    (forall y, hit_get w' y (weight_name (negb g)) = hit_get w y (weight_name (negb g))) /\
    (forall y n, stored n -> n <> "local_weight" -> hit_get w' y n = hit_get w y n) /\
    (forall y n, is_hit w y -> (forall l, In l (b_hits b) -> ~ shares_weight g w y l) -> hit_get w' y n = hit_get w y n).
Proof.
  intros extra voronoi delaunay v d p b g val t w inside Wd Ne Hh Rd [Nd Ow] Hv Ht.
  pose proof (wf_run RNum p) as Wf. fold w in Wf. pose proof (similar_refl RNum w Wf) as Sw.
  unfold inside in *. rewrite ins_spec in *. set (pt := point_of (v_variables v) val) in *.
  set (ok := fun l => match v_bound v with Some be => inb be (pt l) | None => true end) in *.
  destruct (apply_assign extra voronoi delaunay v d w b val Wd Rd Ne Hh Wf g t Hv Ht) as (cs & Fc & E).
  fold pt in E. fold ok in E. set (ins := filter ok (b_hits b)) in *. set (outs := filter (fun l => negb (ok l)) (b_hits b)) in *.
  set (ws := map _ (combine ins cs)) in E. eexists. split; [exact E|].
  assert (Lc : List.length cs = List.length ins) by (apply Forall2_length_eq in Fc; rewrite seq_length in Fc; auto).
  assert (Ii : forall l, In l ins -> In l (b_hits b)) by (intros l Hl; apply filter_In in Hl; tauto).
  assert (Io : forall l, In l outs -> In l (b_hits b)) by (intros l Hl; apply filter_In in Hl; tauto).
  assert (Xio : forall l, In l ins -> In l outs -> False).
  { unfold ins, outs. intros l A B. apply filter_In in A. apply filter_In in B. destruct A as [_ A], B as [_ B].
    rewrite A in B. discriminate. }
  assert (It : forall l x, In (l, x) (combine ins ws ++ map (fun l => (l, 0)) outs) -> In l (b_hits b)).
  { intros l x I. apply in_app_or in I. destruct I as [I|I]; [apply in_combine_l in I; auto|].
    apply in_map_iff in I. destruct I as (l' & Q & I). injection Q as <- _. auto. }
  assert (Ndi : NoDup ins) by (apply NoDup_filter; auto).
  split; [|split; [|split; [|split]]].
  - intros i l Ei. assert (Hl : In l ins) by (eapply nth_error_In; eauto).
    assert (Hi : (i < List.length ins)%nat) by (apply nth_error_Some; congruence).
    destruct (nth_error cs i) as [c|] eqn:Ec; [|apply nth_error_None in Ec; lia].
    exists c. split.
    + clear - Fc Ec. assert (G : forall k m cs i, Forall2 (content_of delaunay t) (seq k m) cs -> nth_error cs i = Some c ->
        content_of delaunay t (k + i) c).
      { intros k m. revert k. induction m as [|m IH]; intros k cs' j F' Ei; cbn [seq] in F'; inversion F'; subst;
          destruct j as [|j]; cbn [nth_error] in Ei; try discriminate.
        - injection Ei as <-. rewrite Nat.add_0_r. auto.
        - rewrite Nat.add_succ_r, <- Nat.add_succ_l. eapply IH; eauto. }
      apply (G 0%nat _ cs i Fc Ec).
    + assert (Ew : nth_error ws i = Some (gaussian d (v_mean v) (v_inv v) (v_det v) (pt l) * c)).
      { unfold ws. rewrite nth_error_map. rewrite (combine_split_nth ins cs i l c Ei Ec).
        rewrite nth_error_app2; rewrite combine_length, !firstn_length, !Nat.min_l by lia; [|lia].
        rewrite Nat.sub_diag. reflexivity. }
      rewrite (combine_split_nth ins ws i l _ Ei Ew), <- app_assoc. cbn [app].
      apply (assign_last RNum g w l _ l _ _); auto; [destruct g; reflexivity|].
      intros l' x' I. apply in_app_or in I.
      assert (Q : In l' (b_hits b) /\ l' <> l).
      { destruct I as [I|I].
        - apply in_combine_l in I. assert (J : In l' ins) by (rewrite <- (firstn_skipn (S i) ins); apply in_or_app; auto).
          split; auto. intros ->. apply In_nth_error in I. destruct I as [j Ej].
          rewrite nth_error_skipn in Ej. rewrite NoDup_nth_error in Ndi.
          specialize (Ndi i (S i + j)%nat Hi ltac:(congruence)). lia.
        - apply in_map_iff in I. destruct I as (l2 & Q & I). injection Q as <- _. split; auto. intros ->. eauto. }
      destruct Q as [Q1 Q2]. split; [auto|]. apply Ow; auto.
  - intros l Hl No. assert (Ho : In l outs).
    { unfold outs. apply filter_In. split; auto. destruct (ok l) eqn:Eo; auto. exfalso. apply No, filter_In. auto. }
    unfold assign. rewrite fold_left_app. fold (@assign RNum g w (combine ins ws)).
    change (fold_left _ (map (fun l0 => (l0, 0)) outs) _) with (@assign RNum g (@assign RNum g w (combine ins ws)) (map (fun l0 => (l0, 0)) outs)).
    apply (assign_const g w); auto.
    + intros l' x' I. apply in_map_iff in I. destruct I as (l2 & Q & I). injection Q as <- <-. auto.
    + exists l. split; [apply in_map_iff; exists l; auto|destruct g; reflexivity].
    + apply assign_similar. exact Sw.
  - intros y. apply assign_other_weight.
  - intros y n St Nl. apply (sim_stored RNum w); auto. apply assign_similar. exact Sw.
  - intros y n Hy Hn. apply (assign_untouched RNum g w); auto. intros l x I. split; [apply Hh; eauto|apply Hn; eauto].
Qed.

(** Hits that share their global weight (hits of one track, or the same hit twice): as soon as
    one of them is outside the bound, all get 0, those inside too. *)
Theorem C43_shared_refuted : forall extra voronoi delaunay v d (p : list (WOp RNum)) b g val t,
  let w := wrun p in
  let inside := inside_hits (v_bound v) (v_variables v) val (b_hits b) in
  weighting_dim d v -> b_hits b <> [] -> (forall l, In l (b_hits b) -> is_hit w l) ->
  readings extra w (b_hits b) (v_variables v) val ->
  voronoi (map (point_of (v_variables v) val) inside ++ boundary (v_bound v)) = Some t ->
  tesselates delaunay t (List.length inside) ->
  exists w', apply_weights extra voronoi delaunay Python2 v w b g = (w', None) /\
    forall l l', In l (b_hits b) -> In l' (b_hits b) -> ~ In l' inside -> shares_weight g w l l' ->
      hit_get w' l (weight_name g) = Some (@PFloat RNum 0).
Proof.
  intros extra voronoi delaunay v d p b g val t w inside Wd Ne Hh Rd Hv Ht.
  pose proof (wf_run RNum p) as Wf. fold w in Wf. pose proof (similar_refl RNum w Wf) as Sw.
  unfold inside in *. rewrite ins_spec in *.
  destruct (apply_assign extra voronoi delaunay v d w b val Wd Rd Ne Hh Wf g t Hv Ht) as (cs & Fc & E).
  eexists. split; [exact E|]. intros l l' Hl Hl' No Sh.
  set (ins := combine _ _). set (outs := filter _ _). unfold assign. rewrite fold_left_app. fold (@assign RNum g w ins).
  change (fold_left _ (map (fun l0 => (l0, 0)) outs) _) with (@assign RNum g (@assign RNum g w ins) (map (fun l0 => (l0, 0)) outs)).
  apply (assign_const g w); auto.
  - intros l1 x' I. apply in_map_iff in I. destruct I as (l2 & Q & I). injection Q as <- <-.
    split; auto. apply Hh. apply filter_In in I. tauto.
  - exists l'. split; [|exact Sh]. apply in_map_iff. exists l'. split; auto. apply filter_In. split; auto.
    match goal with |- negb ?x = true => destruct x eqn:Eo end; auto. exfalso. apply No, filter_In. auto.
  - apply assign_similar. exact Sw.
Qed.

(** Hits whose tile reaches infinity get weight 0 even if there is no bound: the outermost
    hits of a bunch are lost. *)
Theorem C43_edge : forall delaunay t i c k region, content_of delaunay t i c ->
  nth_error (point_region t) i = Some k -> nth_error (regions t) k = Some region -> In (-1)%Z region -> c = 0.
Proof.
  intros delaunay t i c k region C Ek Er I.
  inversion C as [k' region' Ek' Er' Ho|k' region' points simplices Ek' Er' Ne No T D]; subst; auto.
  assert (k' = k) by congruence. subst k'. assert (region' = region) by congruence. subst. contradiction.
Qed.

(** With Python 3 nothing is weighted: apply_weights raises TypeError for every bunch. *)
Theorem C43_python3_refuted : forall extra voronoi delaunay v w b g val,
  readings extra w (b_hits b) (v_variables v) val ->
  apply_weights extra voronoi delaunay Python3 v w b g = (w, Some VTypeError).
Proof.
  intros extra voronoi delaunay v w b g val H. unfold apply_weights. rewrite (columns_spec extra w _ _ val H). reflexivity.
Qed.

(** A bunch without hits is rejected if there is a bound. *)
Theorem C43_empty : forall extra voronoi delaunay v w b g be,
  b_hits b = [] -> v_bound v = Some be ->
  apply_weights extra voronoi delaunay Python2 v w b g = (w, Some VValueError).
Proof.
  intros extra voronoi delaunay v w b g be E Hb. unfold apply_weights, select_points. rewrite E, Hb.
  rewrite (columns_spec extra w [] (v_variables v) (fun _ _ => 0)) by (intros ? ? _ []). reflexivity.
Qed.

(** Two hits at (4, 1) and (-4, 3) with the bound ex_bound: the first gets the density at the
    mean times the area of a unit square, 1 / (2 pi), the second 0. *)
Definition ex_vor : VoronoiWeighting := mkVor 2 ["x"; "y"] [[1; 0]; [0; 1]] 1 [4; 1] (Some ex_bound).
Lemma ex_vor_dim : weighting_dim 2 ex_vor.
Proof.
  split; [lia|]. repeat split; auto; try (intros r [<-|[<-|[]]]; reflexivity); try (cbn; lra).
  intros q [<-|[<-|[<-|[<-|[]]]]]; reflexivity.
Qed.
Lemma ex_vor_inside : inside_hits (v_bound ex_vor) (v_variables ex_vor) (stored_val (wrun ex_two)) (b_hits ex_bunch) = [0%nat].
Proof.
  cbn [inside_hits ex_vor v_bound v_variables ex_bunch append b_hits bunch_new app filter be_inv be_mean ex_bound point_of map].
  rewrite !ex_radius. unfold stored_val. rewrite ex_two_x0, ex_two_x1, ex_two_y0, ex_two_y1. cbn [real_of].
  repeat match goal with |- context [Rle_dec ?a ?b] => destruct (Rle_dec a b); try lra end. reflexivity.
Qed.

Example C43_case : forall extra, exists w',
  apply_weights extra (fun _ => Some ex_tess) ex_delaunay Python2 ex_vor (wrun ex_two) ex_bunch false = (w', None) /\
  hit_get w' 0 "local_weight" = Some (@PFloat RNum (1 / (2 * PI))) /\
  hit_get w' 1 "local_weight" = Some (@PFloat RNum 0).
Proof.
  intros extra. destruct (C43_weights extra (fun _ => Some ex_tess) ex_delaunay ex_vor 2 ex_two ex_bunch false
    (stored_val (wrun ex_two)) ex_tess) as (w' & E & Hi & Ho & _).
  - exact ex_vor_dim.
  - discriminate.
  - exact ex_two_hits.
  - apply ex_two_readings.
  - split; [repeat constructor; cbn; intuition discriminate|]. intros l l' _ _ H H'. contradiction.
  - reflexivity.
  - rewrite ex_vor_inside. intros i Hi. apply ex_tesselates. cbn [List.length] in Hi. lia.
  - exists w'. split; [exact E|]. rewrite ex_vor_inside in *. split.
    + destruct (Hi 0%nat 0%nat eq_refl) as (c & C & Ew). apply ex_content in C. subst c.
      change "local_weight" with (weight_name false). rewrite Ew. do 2 f_equal.
      unfold gaussian. cbn [v_mean v_inv v_det ex_vor v_variables point_of map]. rewrite ex_radius.
      unfold stored_val. rewrite ex_two_x0, ex_two_y0. cbn [real_of].
      match goal with |- exp ?a / _ * _ = _ => replace a with 0 by lra end. rewrite exp_0, !Rmult_1_r.
      rewrite sqrt_pow2; [reflexivity|]. pose proof PI_RGT_0. lra.
    + apply Ho; [cbn; auto|]. intros [H|[]]. discriminate.
Qed.

Print Assumptions C41_cut.
Print Assumptions C41_boundary.
Print Assumptions C41_rejects.
Print Assumptions C41_one_point_refuted.
Print Assumptions C71_simplex.
Print Assumptions C71_tiles.
Print Assumptions C71_python3_refuted.
Print Assumptions C43_constructor.
Print Assumptions C43_mean_refuted.
Print Assumptions C43_weights.
Print Assumptions C43_shared_refuted.
Print Assumptions C43_edge.
Print Assumptions C43_python3_refuted.
Print Assumptions C43_empty.
