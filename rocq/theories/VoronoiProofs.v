(** Proofs for the Voronoi weighting. *)
From Coq Require Import Reals ZArith List Bool String Lia Lra Sorting.Sorted.
From Verif Require Import Num WeightModel HitcoreModel HitcoreSpec HitcoreProofs BunchModel BunchSpec BunchProofs
  HitPyModel HitPySpec HitPyProofs MomentModel MomentSpec MomentProofs BunchNumModel CommonModel CommonSpec CommonProofs GridProofs
  EllipseModel DetProofs EllipseProofs MatProofs TransformModel TransformProofs VoronoiModel VoronoiSpec.
Import ListNotations.
Open Scope R_scope.

(** ---- the cut ---- *)
Definition inb (be : BoundingEllipse) (p : list R) : bool :=
  if Rle_dec (radius (be_inv be) (be_mean be) p) 1 then true else false.

Lemma minus_length a b : List.length a = List.length b -> List.length (minus a b) = List.length a.
Proof. intros H. unfold minus. rewrite map_length, combine_length. lia. Qed.

Lemma bound_arg_spec be d p : List.length (be_mean be) = d -> shape d d (be_inv be) -> List.length p = d ->
  bound_arg be p = Some (radius (be_inv be) (be_mean be) p).
Proof.
  intros Hm Hs Hp. unfold bound_arg. rewrite Hp, Hm, Nat.eqb_refl. f_equal.
  unfold radius. rewrite <- (qform_form (be_inv be) (minus p (be_mean be)) d); auto.
  rewrite minus_length by congruence. exact Hp.
Qed.

Fixpoint cut_ids (be : BoundingEllipse) (index : nat) (ps : list (list R)) : list nat :=
  match ps with
  | [] => []
  | p :: r => if inb be p then index :: cut_ids be (S index) r else cut_ids be (S index) r
  end.

Lemma cut_loop_spec be d : List.length (be_mean be) = d -> shape d d (be_inv be) ->
  forall rest kept fuel index nc, (forall p, In p rest -> List.length p = d) ->
  (List.length rest <= fuel)%nat ->
  cut_loop be fuel (kept ++ rest) (List.length kept) index nc =
  inr (kept ++ filter (inb be) rest, nc ++ cut_ids be index rest).
Proof.
  intros Hm Hs. induction rest as [|p rest IH]; intros kept fuel index nc Hd Hf.
  - cbn [filter cut_ids]. rewrite !app_nil_r. destruct fuel; cbn [cut_loop]; auto.
    rewrite (proj2 (nth_error_None kept (List.length kept))) by lia. reflexivity.
  - destruct fuel as [|fuel]; [simpl in Hf; lia|]. cbn [cut_loop].
    rewrite nth_error_app2, Nat.sub_diag by lia. cbn [nth_error].
    rewrite (bound_arg_spec be d) by (auto; apply Hd; left; auto).
    cbn [filter cut_ids]. destruct (inb be p) eqn:E; unfold inb in E;
      destruct (Rlt_dec 1 _) as [H|H]; destruct (Rle_dec _ 1) as [H'|H']; try lra; try discriminate.
    2:{ unfold delete_row. rewrite firstn_app, firstn_all, Nat.sub_diag. cbn [firstn]. rewrite app_nil_r.
      replace (skipn (S (List.length kept)) (kept ++ p :: rest)) with rest.
      2:{ rewrite skipn_app, skipn_all2 by lia. replace (S (List.length kept) - List.length kept)%nat with 1%nat by lia. reflexivity. }
      apply IH; [intros q Hq; apply Hd; right; auto|simpl in Hf; lia]. }
    + replace (kept ++ p :: rest) with ((kept ++ [p]) ++ rest) by (rewrite <- app_assoc; reflexivity).
      replace (S (List.length kept)) with (List.length (kept ++ [p])) by (rewrite app_length; simpl; lia).
      rewrite IH; [|intros q Hq; apply Hd; right; auto|simpl in Hf; lia].
      rewrite <- !app_assoc. reflexivity.
Qed.

Lemma cut_spec be d points : List.length (be_mean be) = d -> shape d d (be_inv be) ->
  (forall p, In p points -> List.length p = d) ->
  cut_on_bound be points = inr (filter (inb be) points, cut_ids be 0 points).
Proof. intros Hm Hs Hd. unfold cut_on_bound. apply (cut_loop_spec be d Hm Hs points []); auto. Qed.

Lemma cut_ids_In be : forall ps index k, In k (cut_ids be index ps) <->
  exists p, (index <= k)%nat /\ nth_error ps (k - index) = Some p /\ inb be p = true.
Proof.
  induction ps as [|p ps IH]; intros index k; cbn [cut_ids].
  - split; [intros []|]. intros (p & _ & H & _). destruct (k - index)%nat; discriminate.
  - assert (G : In k (cut_ids be (S index) ps) <->
       exists q, (S index <= k)%nat /\ nth_error (p :: ps) (k - index) = Some q /\ inb be q = true).
    { rewrite IH. split; intros (q & A & B & C); exists q; (split; [lia|]); split; auto.
      - replace (k - index)%nat with (S (k - S index)) by lia. exact B.
      - replace (k - index)%nat with (S (k - S index)) in B by lia. exact B. }
    destruct (inb be p) eqn:E.
    + cbn [In]. rewrite G. split.
      * intros [<-|(q & A & B & C)]; [exists p; rewrite Nat.sub_diag; repeat split; auto|exists q; repeat split; auto; lia].
      * intros (q & A & B & C). destruct (Nat.eq_dec k index) as [->|]; auto. right. exists q. repeat split; auto; lia.
    + rewrite G. split; intros (q & A & B & C); exists q; repeat split; auto; try lia.
      destruct (Nat.eq_dec k index) as [->|]; [|lia]. rewrite Nat.sub_diag in B. cbn in B. congruence.
Qed.

Lemma cut_ids_sorted be : forall ps index, StronglySorted lt (cut_ids be index ps).
Proof.
  induction ps as [|p ps IH]; intros index; cbn [cut_ids]; [constructor|].
  destruct (inb be p); auto. constructor; auto. apply Forall_forall. intros k Hk.
  apply cut_ids_In in Hk. destruct Hk as (q & A & _). lia.
Qed.

Lemma cut_ids_kept be : forall ps pre,
  map Some (filter (inb be) ps) = map (nth_error (pre ++ ps)) (cut_ids be (List.length pre) ps).
Proof.
  induction ps as [|p ps IH]; intros pre; cbn [filter cut_ids map]; auto.
  specialize (IH (pre ++ [p])). rewrite app_length, <- app_assoc in IH. cbn [List.length app] in IH.
  rewrite Nat.add_1_r in IH.
  destruct (inb be p); cbn [map]; rewrite ?IH; auto. f_equal.
  rewrite nth_error_app2, Nat.sub_diag by lia. reflexivity.
Qed.

(** ---- the content of a simplex: the determinant of Cayley and Menger ---- *)
Lemma length_sq_sum d p q : length_sq d p q = sum_n d (fun c => (nth c p 0 - nth c q 0) ^ 2).
Proof.
  unfold length_sq. induction d as [|d IH]; [reflexivity|].
  rewrite seq_S, fold_left_app, IH. reflexivity.
Qed.

Lemma det_first_row n (A : Mat) k : (k <= n)%nat -> (forall j, (j <= n)%nat -> A 0%nat j = unit_row k j) ->
  det_n (S n) A = (-1) ^ k * det_n n (fun a b => A (S a) (skip k b)).
Proof.
  intros Hk H.
  change (sum_n (S n) (fun j => (-1) ^ j * A 0%nat j * det_n n (fun a b => A (S a) (skip j b))) =
          (-1) ^ k * det_n n (fun a b => A (S a) (skip k b))).
  rewrite (CommonProofs.sum_n_one (S n) _ k); [|lia|].
  - rewrite H by lia. unfold unit_row. rewrite Nat.eqb_refl. ring.
  - intros j Hj Hjk. rewrite H by lia. unfold unit_row. destruct (Nat.eqb_spec j k); [lia|]. ring.
Qed.

Lemma det_first_column n (A : Mat) k : (k <= n)%nat -> (forall i, (i <= n)%nat -> A i 0%nat = unit_row k i) ->
  det_n (S n) A = (-1) ^ k * det_n n (fun a b => A (skip k a) (S b)).
Proof.
  intros Hk H. rewrite <- (det_transpose (S n)).
  rewrite (det_first_row n (fun i j => A j i) k Hk H). f_equal. apply (det_transpose n (fun a b => A (skip k a) (S b))).
Qed.

Section CayleyMenger.
  Variable d : nat.
  Variable x : nat -> nat -> R.       (* coordinate c of vertex a *)

  Definition sq (a : nat) : R := sum_n d (fun c => x a c * x a c).

  (** The matrix with rows (1, x_a). *)
  Definition lifted : Mat := fun a k => match k with O => 1 | S c => x a c end.

  (** The two factors of the matrix of Cayley and Menger. *)
  Definition cm_left : Mat := fun i k =>
    match i with
    | O => unit_row 0 k
    | S a => match k with
             | O => sq a
             | S c => if Nat.ltb c d then -2 * x a c else 1
             end
    end.
  Definition cm_right : Mat := fun k j =>
    match j with
    | O => unit_row (S d) k
    | S b => match k with
             | O => 1
             | S c => if Nat.ltb c d then x b c else sq b
             end
    end.
  Definition cm : Mat := fun i j =>
    match i, j with
    | O, O => 0
    | O, S _ | S _, O => 1
    | S a, S b => sum_n d (fun c => (x a c - x b c) ^ 2)
    end.

  Lemma cm_factors : eqm (S (S d)) (mul (S (S d)) cm_left cm_right) cm.
  Proof.
    intros i j Hi Hj. unfold mul. rewrite sum_n_first. cbn [sum_n].
    assert (L : Nat.ltb d d = false) by (apply Nat.ltb_irrefl).
    destruct i as [|a].
    - rewrite (CommonProofs.sum_n_zero d). 2:{ intros c Hc. cbn [cm_left]. unfold unit_row. cbn [Nat.eqb]. ring. }
      cbn [cm_left]. unfold unit_row at 1 2. cbn [Nat.eqb].
      destruct j as [|b]; cbn [cm_right cm]; unfold unit_row; cbn [Nat.eqb]; ring.
    - destruct j as [|b].
      + rewrite (CommonProofs.sum_n_zero d).
        2:{ intros c Hc. cbn [cm_right]. unfold unit_row. cbn [Nat.eqb]. destruct (Nat.eqb_spec c d); [lia|ring]. }
        cbn [cm_left cm_right cm]. unfold unit_row. cbn [Nat.eqb]. rewrite Nat.eqb_refl, L. ring.
      + cbn [cm_left cm_right cm]. rewrite L. unfold sq.
        rewrite (CommonProofs.sum_n_ext d (fun c => (if Nat.ltb c d then -2 * x a c else 1) * (if Nat.ltb c d then x b c else sum_n d (fun e => x b e * x b e)))
          (fun c => -2 * (x a c * x b c))).
        2:{ intros c Hc. destruct (Nat.ltb_spec c d); [ring|lia]. }
        rewrite sum_n_scale.
        rewrite (CommonProofs.sum_n_ext d (fun c => (x a c - x b c) ^ 2) (fun c => x a c * x a c + (-2 * (x a c * x b c) + x b c * x b c))).
        2:{ intros; ring. }
        rewrite CommonProofs.sum_n_plus, CommonProofs.sum_n_plus, sum_n_scale. ring.
  Qed.

  Lemma cm_det_right : det_n (S (S d)) cm_right = (-1) ^ (S d) * det_n (S d) lifted.
  Proof.
    rewrite (det_first_column (S d) cm_right (S d)); [|lia|intros; reflexivity].
    f_equal. rewrite <- det_transpose. apply det_ext. intros a b Ha Hb.
    unfold skip. destruct (Nat.ltb_spec b (S d)); [|lia].
    destruct b as [|c]; cbn [cm_right lifted]; auto. destruct (Nat.ltb_spec c d); [auto|lia].
  Qed.

  (** (1, x) times this is (-2 x, 1). *)
  Definition turn : Mat := fun k b =>
    match k with
    | O => unit_row d b
    | S c => if Nat.eqb c b then -2 else 0
    end.

  Lemma turn_det : det_n (S d) turn = 2 ^ d.
  Proof.
    rewrite (det_first_row d turn d); [|lia|intros; reflexivity].
    rewrite (det_ext d _ (scale (-2) one)).
    2:{ intros a b Ha Hb. unfold skip. destruct (Nat.ltb_spec b d); [|lia]. cbn [turn]. unfold scale, one, unit_row.
        rewrite (Nat.eqb_sym b a). destruct (Nat.eqb_spec a b); ring. }
    rewrite det_scale, det_one, Rmult_1_r, <- Rpow_mult_distr. f_equal. ring.
  Qed.

  Lemma cm_det_left : det_n (S (S d)) cm_left = 2 ^ d * det_n (S d) lifted.
  Proof.
    rewrite (det_first_row (S d) cm_left 0); [|lia|intros; reflexivity]. cbn [pow]. rewrite Rmult_1_l.
    rewrite Rmult_comm, <- turn_det, <- det_mul. apply det_ext. intros a b Ha Hb.
    change (skip 0 b) with (S b). cbn [cm_left]. unfold mul. rewrite sum_n_first. cbn [lifted turn].
    destruct (Nat.ltb_spec b d) as [Hd|Hd].
    - rewrite (CommonProofs.sum_n_one d _ b Hd).
      + rewrite Nat.eqb_refl. unfold unit_row. destruct (Nat.eqb_spec b d); [lia|]. ring.
      + intros c Hc Hn. destruct (Nat.eqb_spec c b); [lia|]. ring.
    - rewrite (CommonProofs.sum_n_zero d).
      + unfold unit_row. destruct (Nat.eqb_spec b d); [ring|lia].
      + intros c Hc. destruct (Nat.eqb_spec c b); [lia|]. ring.
  Qed.

  (** Subtract the first row. *)
  Definition shear : Mat := fun i k =>
    match i with O => unit_row 0 k | S a => unit_row (S a) k - unit_row 0 k end.

  Lemma lifted_det : det_n (S d) lifted = det_n d (fun i j => x (S i) j - x 0%nat j).
  Proof.
    assert (E : det_n (S d) shear = 1).
    { rewrite (det_first_row d shear 0); [|lia|intros; reflexivity]. cbn [pow]. rewrite Rmult_1_l.
      rewrite (det_ext d _ one); [apply det_one|]. intros a b Ha Hb. change (skip 0 b) with (S b). cbn [shear].
      unfold one, unit_row. cbn [Nat.eqb]. ring. }
    rewrite <- (Rmult_1_l (det_n (S d) lifted)), <- E, <- det_mul.
    assert (G : eqm (S d) (mul (S d) shear lifted) (fun i k => match i with O => lifted 0%nat k | S a => lifted (S a) k - lifted 0%nat k end)).
    { intros i k Hi Hk. unfold mul. destruct i as [|a].
      - rewrite (CommonProofs.sum_n_one (S d) _ 0%nat); [|lia|].
        + cbn [shear]. unfold unit_row. cbn [Nat.eqb]. ring.
        + intros j Hj Hn. cbn [shear]. unfold unit_row. destruct (Nat.eqb_spec j 0); [lia|]. ring.
      - rewrite sum_n_first, (CommonProofs.sum_n_one d _ a); [|lia|].
        + cbn [shear]. unfold unit_row. cbn [Nat.eqb]. rewrite Nat.eqb_refl. ring.
        + intros j Hj Hn. cbn [shear]. unfold unit_row. cbn [Nat.eqb]. destruct (Nat.eqb_spec j a); [lia|]. ring. }
    rewrite (det_eqm _ _ _ G). rewrite (det_first_column d _ 0); [|lia|].
    - cbn [pow]. rewrite Rmult_1_l. apply det_ext. intros a b Ha Hb. change (skip 0 a) with (S a). cbn [lifted]. reflexivity.
    - intros [|i] Hi; cbn [lifted]; unfold unit_row; cbn [Nat.eqb]; ring.
  Qed.

  Lemma cm_det : det_n (S (S d)) cm =
    (-1) ^ (d + 1) * 2 ^ d * (det_n d (fun i j => x (S i) j - x 0%nat j)) ^ 2.
  Proof.
    rewrite <- (det_eqm _ _ _ cm_factors), det_mul, cm_det_left, cm_det_right, lifted_det, Nat.add_1_r. ring.
  Qed.
End CayleyMenger.

Lemma pow_sign_sq k : (-1) ^ k * (-1) ^ k = 1.
Proof. rewrite <- Rpow_mult_distr. replace (-1 * -1) with 1 by ring. apply pow1. Qed.

Lemma cm_matrix_det d s : cm_coefficient d * det (cm_matrix s d) =
  (det_n d (fun i j => nth j (nth (S i) s []) 0 - nth j (nth 0 s []) 0) / INR (fact d)) ^ 2.
Proof.
  unfold det. assert (L : List.length (cm_matrix s d) = S (S d)).
  { unfold cm_matrix, matrix_of. rewrite map_length, seq_length. lia. }
  rewrite L. set (x := fun a c => nth c (nth a s []) 0).
  rewrite (det_ext (S (S d)) _ (cm d x)).
  2:{ intros i j Hi Hj. unfold cm_matrix. rewrite (proj2 (matrix_of_ent (d + 2) _) i j ltac:(lia) ltac:(lia)).
      destruct i as [|a], j as [|b]; cbn [cm]; auto.
      destruct (Nat.ltb_spec a b); [apply length_sq_sum|]. destruct (Nat.ltb_spec b a).
      - rewrite length_sq_sum. apply CommonProofs.sum_n_ext. intros c Hc. unfold x. ring.
      - assert (a = b) by lia. subst b. symmetry. apply CommonProofs.sum_n_zero. intros; ring. }
  rewrite cm_det. unfold cm_coefficient. set (D := det_n d _).
  change (det_n d (fun i j => nth j (nth (S i) s []) 0 - nth j (nth 0 s []) 0)) with D.
  assert (F : INR (fact d) <> 0) by apply INR_fact_neq_0.
  assert (P : 2 ^ d <> 0) by (apply pow_nonzero; lra).
  transitivity (((-1) ^ (d + 1) * (-1) ^ (d + 1)) * (D / INR (fact d)) ^ 2).
  - field. auto.
  - rewrite pow_sign_sq. ring.
Qed.

Lemma add_simplex_spec d c s : add_simplex d c s = c + volume d s.
Proof.
  unfold add_simplex. rewrite cm_matrix_det. set (D := det_n d _).
  destruct (Rlt_dec _ 0) as [H|_]; [pose proof (pow2_ge_0 (D / INR (fact d))); lra|].
  f_equal. unfold volume. fold D. rewrite <- Rsqr_pow2, sqrt_Rsqr_abs. unfold Rdiv. rewrite Rabs_mult. f_equal.
  apply Rabs_pos_eq. left. apply Rinv_0_lt_compat, INR_fact_lt_0.
Qed.

(** ---- tiles ---- *)
Lemma fold_simplices d points l : forall c,
  fold_left (add_simplex d) (map (map (fun k => nth k points [])) l) c =
  c + rsum (fun s => volume d (map (fun k => nth k points []) s)) l.
Proof.
  induction l as [|s l IH]; intros c; cbn [map fold_left rsum]; [ring|].
  rewrite IH, add_simplex_spec. ring.
Qed.

Lemma region_points t region : (forall j, In j region -> (-1 <= j < Z.of_nat (List.length (vertices t)))%Z) ->
  (vertices t = [] -> region = []) ->
  exists points, all_some (map (fun j : Z => match list_index (List.length (vertices t)) j with
                    | Some k => nth_error (vertices t) k
                    | None => None
                    end) region) = Some points /\
    (~ In (-1)%Z region -> tile_vertices t region points).
Proof.
  intros H H0. assert (V : forall j, In j region -> (0 < List.length (vertices t))%nat).
  { intros j Hj. destruct (vertices t); [rewrite H0 in Hj by auto; contradiction|simpl; lia]. }
  clear H0. induction region as [|j region IH].
  - exists []. split; auto. intros _. constructor.
  - destruct IH as (points & E & T); [intros; apply H; right; auto|intros; eapply V; right; eauto|].
    cbn [map all_some]. rewrite E.
    assert (Hj := H j (or_introl eq_refl)). assert (Vj := V j (or_introl eq_refl)).
    assert (G : exists k p, list_index (List.length (vertices t)) j = Some k /\ nth_error (vertices t) k = Some p /\
      ((0 <= j)%Z -> k = Z.to_nat j)).
    { unfold list_index. destruct (Z.leb_spec 0 j).
      - destruct (Z.ltb_spec j (Z.of_nat (List.length (vertices t)))); [|lia]. cbn [andb].
        destruct (nth_error (vertices t) (Z.to_nat j)) as [p|] eqn:Ep; [eauto|]. apply nth_error_None in Ep. lia.
      - cbn [andb]. destruct (Z.ltb_spec j 0); [|lia]. destruct (Z.leb_spec (- Z.of_nat (List.length (vertices t))) j); [|lia].
        cbn [andb]. set (k := Z.to_nat _). assert (k < List.length (vertices t))%nat by (unfold k; lia).
        destruct (nth_error (vertices t) k) as [p|] eqn:Ep; [exists k, p; repeat split; auto; lia|]. apply nth_error_None in Ep. lia. }
    destruct G as (k & p & -> & Ep & Ek). rewrite Ep. exists (p :: points). split; auto.
    intros Hn. constructor.
    + assert (0 <= j)%Z. { destruct (Z.eq_dec j (-1)); [subst; exfalso; apply Hn; left; auto|lia]. }
      split; auto. rewrite <- Ek; auto.
    + apply T. intros Hi. apply Hn. right; auto.
Qed.

Lemma existsb_Z z l : existsb (Z.eqb z) l = true <-> In z l.
Proof.
  rewrite existsb_exists. split.
  - intros (y & Hy & E). apply Z.eqb_eq in E. subst; auto.
  - intros H. exists z. split; auto. apply Z.eqb_refl.
Qed.

Lemma all_okV_map {A B} (f : A -> VErr + B) (P : A -> B -> Prop) l :
  (forall x, In x l -> exists y, f x = inr y /\ P x y) ->
  exists ys, all_okV (map f l) = inr ys /\ Forall2 P l ys.
Proof.
  induction l as [|x l IH]; intros H; cbn [map all_okV].
  - exists []. split; auto.
  - destruct (H x (or_introl eq_refl)) as (y & -> & Py).
    destruct IH as (ys & -> & F); [intros; apply H; right; auto|]. exists (y :: ys). split; auto.
Qed.

Lemma hull_spec delaunay t n : tesselates delaunay t n ->
  exists cs, hull_content Python2 delaunay t n = inr cs /\ Forall2 (content_of delaunay t) (seq 0 n) cs.
Proof.
  intros H. unfold hull_content. apply all_okV_map. intros i Hi. apply in_seq in Hi.
  destruct (H i ltac:(lia)) as (k & region & Ek & Er & Hr & H0 & Hd). rewrite Ek, Er.
  destruct (region_points t region Hr H0) as (points & -> & T).
  unfold tile_content. destruct (existsb (Z.eqb (-1)) region) eqn:Ex; cbn [orb].
  - exists 0. split; auto. apply existsb_Z in Ex. apply (open_tile _ _ _ k region); auto.
  - assert (Nx : ~ In (-1)%Z region) by (intros I; apply existsb_Z in I; congruence).
    destruct region as [|j region]; cbn [List.length Nat.eqb].
    + exists 0. split; auto. apply (open_tile _ _ _ k []); auto.
    + specialize (T Nx). specialize (Hd points T).
      destruct (delaunay points) as [simplices|] eqn:Ed; [|congruence].
      rewrite fold_simplices, Rplus_0_l. eexists. split; [reflexivity|].
      apply (closed_tile _ _ _ k (j :: region)); auto. discriminate.
Qed.

(** ---- sequences of assignments to weights ---- *)
Section Assign.
  Variable N : NumOps.
  Notation World := (World N).

  Definition assign (g : bool) (w : World) (todo : list (nat * N)) : World :=
    fold_left (fun w p => fst (hit_set w (fst p) (weight_name g) (PFloat (snd p)))) todo w.

  Lemma assign_similar g w0 todo : forall w, similar N w0 w -> similar N w0 (assign g w todo).
  Proof.
    induction todo as [|[l x] todo IH]; intros w H; [exact H|]. cbn [assign fold_left].
    apply IH. apply similar_set. exact H.
  Qed.

  Lemma assign_other_weight g todo : forall (w : World) y,
    hit_get (assign g w todo) y (weight_name (negb g)) = hit_get w y (weight_name (negb g)).
  Proof.
    induction todo as [|[l x] todo IH]; intros w y; [reflexivity|].
    change (assign g w ((l, x) :: todo)) with (assign g (fst (hit_set w l (weight_name g) (PFloat x))) todo).
    rewrite IH. apply other_weight_set.
  Qed.

  Lemma assign_untouched g w0 y n todo : is_hit w0 y ->
    (forall l x, In (l, x) todo -> is_hit w0 l /\ ~ shares_weight g w0 y l) ->
    forall w, similar N w0 w -> hit_get (assign g w todo) y n = hit_get w y n.
  Proof.
    intros Hy. induction todo as [|[l x] todo IH]; intros H w S; [reflexivity|].
    change (assign g w ((l, x) :: todo)) with (assign g (fst (hit_set w l (weight_name g) (PFloat x))) todo).
    destruct (H l x (or_introl eq_refl)) as [Hl Hn].
    rewrite IH; [|intros; apply (H _ x0); right; auto|apply similar_set; auto].
    apply (weight_set_other N w0 w g l x y n S Hl Hy Hn).
  Qed.

  Lemma assign_last g w0 y todo1 l x todo2 : is_hit w0 y -> is_hit w0 l -> shares_weight g w0 y l ->
    (forall l' x', In (l', x') todo2 -> is_hit w0 l' /\ ~ shares_weight g w0 y l') ->
    forall w, similar N w0 w ->
    hit_get (assign g w (todo1 ++ (l, x) :: todo2)) y (weight_name g) = Some (PFloat x).
  Proof.
    intros Hy Hl Hs H w S. unfold assign. rewrite fold_left_app. cbn [fold_left].
    fold (assign g w todo1). cbn [fst snd].
    fold (assign g (fst (hit_set (assign g w todo1) l (weight_name g) (PFloat x))) todo2).
    pose proof (assign_similar g w0 todo1 w S) as S1.
    rewrite (assign_untouched g w0 y (weight_name g) todo2 Hy H); [|apply similar_set; auto].
    apply (weight_set_same N w0); auto.
  Qed.
End Assign.
Arguments assign {N} _ _ _.

(** ---- apply_weights ---- *)
Lemma columns_spec extra (w : RWorld) hits vars val : readings extra w hits vars val ->
  columns_of extra w hits vars = Some (map (fun v => map (val v) hits) vars).
Proof.
  intros H. unfold columns_of. apply BunchProofs.all_some_map. intros v Hv. unfold list_get_hit_variable.
  assert (G : forall hs, incl hs hits -> exists vs, all_some (map (get_hit_variable extra w hits v) hs) = Some vs /\
    all_some (map as_real vs) = Some (map (val v) hs)).
  { induction hs as [|l hs IH]; intros Hi; [exists []; auto|].
    destruct IH as (vs & E & F); [intros z Hz; apply Hi; right; auto|].
    destruct (H v l Hv (Hi l (or_introl eq_refl))) as (x & Ex & Nx & Rx).
    exists (x :: vs). cbn [map all_some]. rewrite Ex, E. split; auto. cbn [map all_some]. rewrite F.
    destruct x; cbn [as_real real_of option_map] in *; try congruence; rewrite <- Rx; reflexivity. }
  destruct (G hits (incl_refl hits)) as (vs & -> & F). exact F.
Qed.

Lemma rows_spec hits vars (val : string -> nat -> R) :
  rows_of (List.length hits) (map (fun v => map (val v) hits) vars) = map (point_of vars val) hits.
Proof.
  unfold rows_of.
  assert (G : forall pre suf, hits = pre ++ suf ->
    map (fun i => map (fun c => nth i c 0) (map (fun v => map (val v) hits) vars)) (seq (List.length pre) (List.length suf)) =
    map (point_of vars val) suf).
  { intros pre suf. revert pre. induction suf as [|l suf IH]; intros pre E; auto.
    cbn [List.length seq map]. f_equal.
    - rewrite map_map. unfold point_of. apply map_ext. intros v. rewrite E, map_app. cbn [map].
      rewrite app_nth2; rewrite map_length; [|lia]. rewrite Nat.sub_diag. reflexivity.
    - specialize (IH (pre ++ [l])). rewrite app_length in IH. cbn [List.length] in IH. rewrite Nat.add_1_r in IH.
      apply IH. rewrite <- app_assoc. exact E. }
  apply (G [] hits eq_refl).
Qed.

Lemma get_pdf_spec v d p : List.length (v_mean v) = d -> shape d d (v_inv v) -> 0 < v_det v -> List.length p = d ->
  get_pdf v p = Some (gaussian d (v_mean v) (v_inv v) (v_det v) p).
Proof.
  intros Hm Hs Hd Hp. unfold get_pdf. rewrite Hp.
  assert (P : 0 < (2 * PI) ^ d * v_det v).
  { apply Rmult_lt_0_compat; auto. apply pow_lt. pose proof PI_RGT_0. lra. }
  destruct (Rle_dec _ 0); [lra|]. f_equal. unfold gaussian, radius.
  rewrite <- (qform_form (v_inv v) (minus p (v_mean v)) d); [|rewrite minus_length by congruence; exact Hp|auto].
  f_equal. f_equal. unfold qform, minus. set (q := dot _ _). field.
Qed.

Lemma weigh_loop_assign g hits w0 : (forall l, In l hits -> is_hit w0 l) ->
  forall todo (w : RWorld) res, similar RNum w0 w ->
  Forall2 (fun t r => exists p, nth_error hits (fst t) = Some (fst r) /\ fst (snd t) = Some p /\ snd r = p * snd (snd t)) todo res ->
  weigh_loop w hits (weight_name g) todo = (@assign RNum g w res, None).
Proof.
  intros Hh. induction todo as [|[k [pdf c]] todo IH]; intros w res S F; inversion F as [|? [l x] ? res' Hr Ft]; subst.
  - reflexivity.
  - destruct Hr as (p & E1 & E2 & E3). cbn [fst snd] in *. cbn [weigh_loop]. rewrite E1, E2.
    pose proof (hit_set_ok RNum w l g (p * c) ltac:(apply S, Hh; eapply nth_error_In; eauto)) as Ok.
    destruct (hit_set w l (weight_name g) _) as [w' ok] eqn:E. cbn [snd] in Ok. subst ok.
    rewrite (IH w' res'); auto.
    + f_equal. unfold assign. cbn [fold_left fst snd]. subst x.
      change (RNum : Type) with R in *. rewrite E. reflexivity.
    + change w' with (fst (w', true)). rewrite <- E. apply similar_set; auto.
Qed.

Fixpoint cut_hits (not_cut : list nat) (i : nat) (hs : list nat) : list (nat * R) :=
  match hs with
  | [] => []
  | l :: r => if existsb (Nat.eqb i) not_cut then cut_hits not_cut (S i) r else (l, 0) :: cut_hits not_cut (S i) r
  end.

Lemma zero_loop_assign g w0 not_cut : forall hs i (w : RWorld), similar RNum w0 w -> (forall l, In l hs -> is_hit w0 l) ->
  zero_loop w (weight_name g) not_cut i hs = (@assign RNum g w (cut_hits not_cut i hs), None).
Proof.
  induction hs as [|l hs IH]; intros i w S Hh; [reflexivity|]. cbn [zero_loop cut_hits].
  destruct (existsb _ not_cut); [apply IH; auto; intros; apply Hh; right; auto|].
  pose proof (hit_set_ok RNum w l g 0 ltac:(apply S, Hh; left; auto)) as Ok.
  destruct (hit_set w l (weight_name g) _) as [w' ok] eqn:E. cbn [snd] in Ok. subst ok.
  rewrite IH.
  - f_equal. unfold assign. cbn [fold_left fst snd]. change (RNum : Type) with R in *. rewrite E. reflexivity.
  - change w' with (fst (w', true)). rewrite <- E. apply similar_set; auto.
  - intros; apply Hh; right; auto.
Qed.

Fixpoint positions (ok : nat -> bool) (i : nat) (hs : list nat) : list nat :=
  match hs with
  | [] => []
  | l :: r => if ok l then i :: positions ok (S i) r else positions ok (S i) r
  end.

Lemma cut_ids_positions be pt : forall hs i, cut_ids be i (map pt hs) = positions (fun l => inb be (pt l)) i hs.
Proof. induction hs as [|l hs IH]; intros i; cbn [map cut_ids positions]; auto. rewrite IH. reflexivity. Qed.

Lemma seq_positions : forall (hs : list nat) i, seq i (List.length hs) = positions (fun _ => true) i hs.
Proof. induction hs as [|l hs IH]; intros i; cbn [List.length seq positions]; auto. rewrite IH. reflexivity. Qed.

Lemma filter_map_comm {A B} (pt : A -> B) (f : B -> bool) l : filter f (map pt l) = map pt (filter (fun x => f (pt x)) l).
Proof. induction l as [|x l IH]; cbn [map filter]; auto. destruct (f (pt x)); cbn [map]; rewrite IH; reflexivity. Qed.

Lemma filter_all {A} (l : list A) : filter (fun _ => true) l = l.
Proof. induction l; cbn; congruence. Qed.

Lemma positions_nth ok : forall hs pre,
  map Some (filter ok hs) = map (nth_error (pre ++ hs)) (positions ok (List.length pre) hs).
Proof.
  induction hs as [|p ps IH]; intros pre; cbn [filter positions map]; auto.
  specialize (IH (pre ++ [p])). rewrite app_length, <- app_assoc in IH. cbn [List.length app] in IH.
  rewrite Nat.add_1_r in IH. destruct (ok p); cbn [map]; rewrite ?IH; auto. f_equal.
  rewrite nth_error_app2, Nat.sub_diag by lia. reflexivity.
Qed.

Lemma positions_ge ok : forall hs i k, In k (positions ok i hs) -> (i <= k)%nat.
Proof.
  induction hs as [|l hs IH]; intros i k H; [destruct H|]. cbn [positions] in H.
  destruct (ok l); [destruct H as [<-|H]; auto|]; specialize (IH _ _ H); lia.
Qed.

Lemma cut_hits_positions ok : forall hs i nc, (forall k, In k nc -> (k < i)%nat) ->
  cut_hits (nc ++ positions ok i hs) i hs = map (fun l => (l, 0)) (filter (fun l => negb (ok l)) hs).
Proof.
  induction hs as [|l hs IH]; intros i nc H; auto.
  cbn [positions cut_hits filter]. destruct (ok l) eqn:E; cbn [negb].
  - replace (existsb (Nat.eqb i) (nc ++ i :: positions ok (S i) hs)) with true.
    + replace (nc ++ i :: positions ok (S i) hs) with ((nc ++ [i]) ++ positions ok (S i) hs) by (rewrite <- app_assoc; reflexivity).
      apply IH. intros k Hk. apply in_app_or in Hk. destruct Hk as [Hk|[<-|[]]]; [specialize (H k Hk); lia|lia].
    + symmetry. apply existsb_exists. exists i. split; [apply in_or_app; right; left; auto|apply Nat.eqb_refl].
  - replace (existsb (Nat.eqb i) (nc ++ positions ok (S i) hs)) with false.
    + cbn [map]. f_equal. apply IH. intros k Hk. specialize (H k Hk). lia.
    + symmetry. apply not_true_is_false. intros T. apply existsb_exists in T. destruct T as (k & Hk & Ek).
      apply Nat.eqb_eq in Ek. subst k. apply in_app_or in Hk. destruct Hk as [Hk|Hk]; [specialize (H i Hk); lia|].
      apply positions_ge in Hk. lia.
Qed.

Lemma Forall2_length_eq {A B} (P : A -> B -> Prop) l r : Forall2 P l r -> List.length l = List.length r.
Proof. induction 1; cbn; auto. Qed.

Lemma Forall2_map_l {A B C} (f : A -> B) (P : B -> C -> Prop) l r :
  Forall2 P (map f l) r <-> Forall2 (fun x => P (f x)) l r.
Proof.
  revert r. induction l as [|x l IH]; intros r; cbn [map]; split; intros H; inversion H; subst; constructor; auto; apply IH; auto.
Qed.

Section ApplyProof.
  Variable extra : RWorld -> list nat -> string -> nat -> option RVal.
  Variable voronoi : list (list R) -> option Tesselation.
  Variable delaunay : Delaunay.
  Variable v : VoronoiWeighting.
  Variable d : nat.
  Variable w : RWorld.
  Variable b : Bunch.
  Variable val : string -> nat -> R.
  Hypothesis Wd : weighting_dim d v.
  Hypothesis Rd : readings extra w (b_hits b) (v_variables v) val.
  Hypothesis Ne : b_hits b <> [].
  Hypothesis Hh : forall l, In l (b_hits b) -> is_hit w l.
  Hypothesis Wf : wf RNum w.

  Let hits := b_hits b.
  Let pt := point_of (v_variables v) val.
  Let ok (l : nat) : bool := match v_bound v with Some be => inb be (pt l) | None => true end.
  Let ins := filter ok hits.
  Let outs := filter (fun l => negb (ok l)) hits.

  Lemma ins_spec : inside_hits (v_bound v) (v_variables v) val hits = ins.
  Proof.
    unfold inside_hits, ins, ok. destruct (v_bound v); [reflexivity|]. symmetry. apply filter_all.
  Qed.

  Lemma pt_length l : List.length (pt l) = d.
  Proof. unfold pt, point_of. rewrite map_length. apply Wd. Qed.

  Lemma select_spec : select_points v (map pt hits) =
    inr (map pt ins, positions ok 0 hits, map pt ins ++ boundary (v_bound v)).
  Proof.
    unfold select_points, ins, ok, boundary. destruct Wd as (_ & _ & _ & _ & _ & Bd). destruct (v_bound v) as [be|].
    - destruct Bd as (_ & Bm & Bi & _).
      assert (E : map pt hits <> []) by (unfold hits; destruct (b_hits b); [congruence|discriminate]).
      destruct (map pt hits) as [|r0 rs] eqn:Er; [congruence|]. rewrite <- Er.
      rewrite (cut_spec be d); auto.
      + rewrite cut_ids_positions, filter_map_comm. reflexivity.
      + intros p Hp. apply in_map_iff in Hp. destruct Hp as (l & <- & _). apply pt_length.
    - rewrite filter_all, map_length, seq_positions, app_nil_r. reflexivity.
  Qed.

  Lemma apply_assign g t : voronoi (map pt ins ++ boundary (v_bound v)) = Some t ->
    tesselates delaunay t (List.length ins) ->
    exists cs, Forall2 (content_of delaunay t) (seq 0 (List.length ins)) cs /\
      apply_weights extra voronoi delaunay Python2 v w b g =
      (@assign RNum g w (combine ins (map (fun lc => gaussian d (v_mean v) (v_inv v) (v_det v) (pt (fst lc)) * snd lc)
                                          (combine ins cs)) ++ map (fun l => (l, 0)) outs), None).
  Proof.
    intros Hv Ht. destruct (hull_spec delaunay t _ Ht) as (cs & Hc & Fc). exists cs. split; auto.
    unfold apply_weights. rewrite (columns_spec extra w _ _ val Rd). fold hits.
    rewrite rows_spec. fold pt. rewrite select_spec, Hv. rewrite map_length, Hc.
    set (res := combine ins _).
    rewrite (weigh_loop_assign g hits w Hh _ w res).
    - rewrite (zero_loop_assign g w (positions ok 0 hits) hits 0).
      + f_equal. unfold assign. rewrite fold_left_app. f_equal. apply (cut_hits_positions ok hits 0 []). intros k [].
      + apply assign_similar, similar_refl, Wf.
      + exact Hh.
    - apply similar_refl, Wf.
    - pose proof (positions_nth ok hits []) as P. cbn [app List.length] in P. fold ins in P.
      assert (Lc : List.length cs = List.length ins).
      { apply Forall2_length_eq in Fc. rewrite seq_length in Fc. auto. }
      unfold res. clear res Fc Hc Hv Ht. revert P Lc. generalize (positions ok 0 hits). generalize cs. generalize ins.
      induction ins0 as [|l ls IH]; intros [|c cs0] [|k ks] P Lc; try discriminate; cbn [map combine]; constructor.
      + cbn [fst snd]. exists (gaussian d (v_mean v) (v_inv v) (v_det v) (pt l)). cbn [map] in P.
        split; [injection P as P _; congruence|]. split; [|reflexivity].
        destruct Wd as (_ & _ & Wm & Wi & Wv & _). apply get_pdf_spec; auto. apply pt_length.
      + apply IH; [cbn [map] in P; injection P; auto|]. cbn [List.length] in Lc. lia.
  Qed.

  Lemma in_parts l : In l hits -> In l ins \/ In l outs.
  Proof. intros H. unfold ins, outs. rewrite !filter_In. destruct (ok l); auto. Qed.
  Lemma ins_in l : In l ins -> In l hits.
  Proof. intros H. apply filter_In in H. tauto. Qed.
  Lemma outs_in l : In l outs -> In l hits.
  Proof. intros H. apply filter_In in H. tauto. Qed.
  Lemma outs_not l : In l outs -> ~ In l ins.
  Proof. unfold ins, outs. rewrite !filter_In. intros [_ A] [_ B]. rewrite B in A. discriminate. Qed.
End ApplyProof.

Lemma combine_split_nth {A B} (la : list A) (lb : list B) i a b : nth_error la i = Some a -> nth_error lb i = Some b ->
  combine la lb = combine (firstn i la) (firstn i lb) ++ (a, b) :: combine (skipn (S i) la) (skipn (S i) lb).
Proof.
  revert la lb. induction i as [|i IH]; intros [|x la] [|y lb]; cbn [nth_error]; try discriminate.
  - intros E1 E2. injection E1 as ->. injection E2 as ->. reflexivity.
  - intros E1 E2. cbn [combine firstn app]. f_equal. apply IH; auto.
Qed.

Lemma assign_const (g : bool) (w0 : RWorld) y x todo : is_hit w0 y ->
  (forall l x', In (l, x') todo -> is_hit w0 l /\ x' = x) ->
  (exists l, In (l, x) todo /\ shares_weight g w0 y l) ->
  forall w, similar RNum w0 w -> hit_get (@assign RNum g w todo) y (weight_name g) = Some (PFloat (x : RNum)).
Proof.
  intros Hy. induction todo as [|[l x'] todo IH]; intros H (l0 & I & Hs) w S; [destruct I|].
  assert (D : (exists l, In (l, x) todo /\ shares_weight g w0 y l) \/ (forall l' x'', In (l', x'') todo -> is_hit w0 l' /\ ~ shares_weight g w0 y l')).
  { assert (H' : forall l x', In (l, x') todo -> is_hit w0 l /\ x' = x) by (intros; apply H; right; auto).
    clear IH I H. induction todo as [|[a xa] todo IHt]; [right; intros ? ? []|].
    destruct (H' a xa (or_introl eq_refl)) as [Ha ->].
    destruct (affected_dec RNum g w0 y a Hy Ha) as [A|A]; [left; exists a; split; [left; auto|auto]|].
    destruct IHt as [(l1 & I1 & S1)|Q]; [intros; apply H'; right; auto|left; exists l1; split; [right; auto|auto]|].
    right. intros l' x'' [E|I']; [injection E as <- <-; auto|eauto]. }
  destruct D as [D|D].
  - change (@assign RNum g w ((l, x') :: todo)) with (@assign RNum g (fst (hit_set w l (weight_name g) (PFloat (x' : RNum)))) todo).
    apply IH; auto. { intros; apply H; right; auto. } apply similar_set; auto.
  - destruct I as [E|I].
    + injection E as -> ->. apply (assign_last RNum g w0 y [] l0 x todo); auto. apply (H l0 x). left; auto.
    + destruct (D _ _ I) as [_ N]. contradiction.
Qed.
