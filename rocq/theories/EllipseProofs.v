(** Lemmas about ellipses. *)
From Coq Require Import Reals ZArith List Bool String Permutation Lia Lra.
From Verif Require Import Num WeightModel WeightProofs HitcoreModel HitcoreSpec HitcoreProofs
  PyLibModel PyLibProofs BunchModel BunchSpec BunchProofs HitPyModel HitPySpec HitPyProofs
  MomentModel BunchNumModel MomentSpec MomentProofs StatProofs CommonModel CommonSpec
  CommonProofs GridProofs EllipseModel EllipseSpec.
Import ListNotations.
Open Scope string_scope.
Open Scope list_scope.
Open Scope R_scope.

Lemma light_c : c_light = light.
Proof. unfold c_light, light. lra. Qed.

Lemma len2 (v : list R) : List.length v = 2%nat -> exists x y, v = [x; y].
Proof. destruct v as [|x [|y [|z v]]]; simpl; intros; try lia. exists x, y. reflexivity. Qed.
Lemma len4 (v : list R) : List.length v = 4%nat -> exists x y z t, v = [x; y; z; t].
Proof. destruct v as [|x [|y [|z [|t [|u v]]]]]; simpl; intros; try lia. exists x, y, z, t. reflexivity. Qed.

Lemma shape2 (a b c d : R) : shape 2 2 [[a; b]; [c; d]].
Proof. split; auto. intros r [<-|[<-|[]]]; reflexivity. Qed.

Lemma nonzero2 x y : nonzero [x; y] -> x <> 0 \/ y <> 0.
Proof. intros [[|[|[|i]]] H]; simpl in H; auto; congruence. Qed.

Lemma pd2 (a b c : R) : 0 < a -> 0 < a * c - b * b -> positive_definite 2 [[a; b]; [b; c]].
Proof.
  intros Ha Hd. split; [apply shape2|]. intros v L NZ.
  destruct (len2 v L) as (x & y & ->). apply nonzero2 in NZ.
  unfold form, ent; simpl.
  apply (Rmult_lt_reg_l a); [lra|]. rewrite Rmult_0_r.
  match goal with |- 0 < ?e => replace e with ((a * x + b * y) * (a * x + b * y) + (a * c - b * b) * (y * y)) by ring end.
  destruct (Req_EM_T y 0) as [->|Ny].
  - destruct NZ as [NZ|NZ]; [|congruence]. assert (0 < (a * x) * (a * x)); [|lra].
    apply Rlt_0_sqr. apply Rmult_integral_contrapositive. split; lra.
  - assert (0 < y * y) by (apply Rlt_0_sqr; auto).
    assert (0 < (a * c - b * b) * (y * y)) by (apply Rmult_lt_0_compat; auto).
    pose proof (Rle_0_sqr (a * x + b * y)). unfold Rsqr in *. lra.
Qed.

Lemma pd2_rev (a b c : R) : positive_definite 2 [[a; b]; [b; c]] -> 0 < a /\ 0 < a * c - b * b.
Proof.
  intros [_ H].
  assert (Ha : 0 < a).
  { specialize (H [1; 0] eq_refl). unfold form, ent in H; simpl in H.
    assert (nonzero [1; 0]) by (exists 0%nat; simpl; lra). specialize (H H0). lra. }
  split; auto. specialize (H [- b; a] eq_refl).
  assert (nonzero [- b; a]) by (exists 1%nat; simpl; lra). specialize (H H0).
  unfold form, ent in H; simpl in H.
  apply (Rmult_lt_reg_l a); auto. lra.
Qed.

(** The matrix of a beam with rotational symmetry. *)
Definition cyl (a b c d : R) : Matrix :=
  [[a; b; 0; d]; [b; c; - d; 0]; [0; - d; a; b]; [d; 0; b; c]].

Lemma cyl_shape a b c d : shape 4 4 (cyl a b c d).
Proof. split; auto. intros r [<-|[<-|[<-|[<-|[]]]]]; reflexivity. Qed.

Lemma cyl_sym a b c d : symmetric 4 (cyl a b c d).
Proof.
  intros i j Hi Hj. unfold cyl, ent.
  destruct i as [|[|[|[|i]]]]; try lia; destruct j as [|[|[|[|j]]]]; try lia; reflexivity.
Qed.

Lemma cyl_form a b c d x px y py : form (cyl a b c d) [x; px; y; py] * a =
  (a * x + b * px + d * py) * (a * x + b * px + d * py) +
  (a * y + b * py - d * px) * (a * y + b * py - d * px) +
  (a * c - b * b - d * d) * (px * px + py * py).
Proof. unfold form, cyl, ent; simpl. ring. Qed.

Lemma cyl_pd a b c d : 0 < a -> 0 < a * c - b * b - d * d -> positive_definite 4 (cyl a b c d).
Proof.
  intros Ha Hd. split; [apply cyl_shape|]. intros v L NZ.
  destruct (len4 v L) as (x & px & y & py & ->).
  apply (Rmult_lt_reg_r a); [lra|]. rewrite Rmult_0_l, cyl_form.
  pose proof (Rle_0_sqr (a * x + b * px + d * py)). pose proof (Rle_0_sqr (a * y + b * py - d * px)).
  pose proof (Rle_0_sqr px). pose proof (Rle_0_sqr py). unfold Rsqr in *.
  destruct (Req_EM_T (px * px + py * py) 0) as [E|E].
  - assert (px * px = 0) by lra. assert (py * py = 0) by lra.
    assert (px = 0) by (apply Rsqr_0_uniq; auto). assert (py = 0) by (apply Rsqr_0_uniq; auto). subst.
    rewrite !Rmult_0_r, !Rplus_0_r.
    assert (XY : x <> 0 \/ y <> 0).
    { destruct NZ as [[|[|[|[|[|i]]]]] NZ]; simpl in NZ; auto; congruence. }
    assert (P : forall z, z <> 0 -> 0 < (a * z) * (a * z)).
    { intros z Hz. apply Rlt_0_sqr. apply Rmult_integral_contrapositive. split; lra. }
    pose proof (Rle_0_sqr (a * x)). pose proof (Rle_0_sqr (a * y)). unfold Rsqr in *.
    destruct XY as [Hx|Hy]; [pose proof (P x Hx)|pose proof (P y Hy)]; nra.
  - assert (0 < (a * c - b * b - d * d) * (px * px + py * py)) by (apply Rmult_lt_0_compat; lra). lra.
Qed.

Lemma cyl_pd_rev a b c d : positive_definite 4 (cyl a b c d) -> 0 < a /\ 0 < a * c - b * b - d * d.
Proof.
  intros [_ H].
  assert (Ha : 0 < a).
  { specialize (H [1; 0; 0; 0] eq_refl). unfold form, cyl, ent in H; simpl in H.
    assert (nonzero [1; 0; 0; 0]) by (exists 0%nat; simpl; lra). specialize (H H0). lra. }
  split; auto.
  specialize (H [- b / a; 1; d / a; 0] eq_refl).
  assert (nonzero [- b / a; 1; d / a; 0]) by (exists 1%nat; simpl; lra). specialize (H H0).
  assert (G : 0 < form (cyl a b c d) [- b / a; 1; d / a; 0] * a) by (apply Rmult_lt_0_compat; auto).
  rewrite cyl_form in G.
  replace (a * (- b / a) + b * 1 + d * 0) with 0 in G by (field; lra).
  replace (a * (d / a) + b * 0 - d * 1) with 0 in G by (field; lra). lra.
Qed.

Lemma cyl_det a b c d : det (cyl a b c d) = (a * c - b * b - d * d) * (a * c - b * b - d * d).
Proof. unfold det, cyl, ent; simpl. ring. Qed.

Lemma det_2 a b c d : det [[a; b]; [c; d]] = a * d - b * c.
Proof. unfold det, ent; simpl. ring. Qed.

(** n-th roots. *)
Lemma root_pow x n : 0 < x -> (0 < n)%nat -> root (x ^ n) n = Some x.
Proof.
  intros Hx Hn. unfold root, power.
  assert (0 < x ^ n) by (apply pow_lt; auto).
  destruct (Rlt_dec (x ^ n) 0); [lra|]. destruct (Req_EM_T (x ^ n) 0); [lra|].
  f_equal. rewrite <- Rpower_pow by auto. rewrite Rpower_mult.
  replace (INR n * (1 / INR n)) with 1 by (field; apply not_0_INR; lia). apply Rpower_1; auto.
Qed.

Lemma root_nonneg x n y : root x n = Some y -> 0 <= y.
Proof.
  unfold root, power. destruct (Rlt_dec x 0); [discriminate|].
  destruct (Req_EM_T x 0); intros H; injection H as <-; [lra|]. left. apply exp_pos.
Qed.

Lemma root_sqrt x : 0 <= x -> root x 2 = Some (sqrt x).
Proof.
  intros H. unfold root, power. destruct (Rlt_dec x 0); [lra|].
  destruct (Req_EM_T x 0) as [->|N]; [rewrite sqrt_0; auto|].
  f_equal. replace (1 / INR 2) with (/ 2) by (simpl; lra). apply Rpower_sqrt. lra.
Qed.

(** ---- names ---- *)
Lemma momentum_variable_in a geo m : momentum_variable a geo = Some m <-> In (a, m) (conjugates geo).
Proof.
  unfold momentum_variable, axis_list, conjugates, momenta, slopes. cbn [index_of].
  destruct (String.eqb_spec "x" a) as [<-|Nx]; [|destruct (String.eqb_spec "y" a) as [<-|Ny];
    [|destruct (String.eqb_spec "z" a) as [<-|Nz]; [|destruct (String.eqb_spec "t" a) as [<-|Nt];
    [|destruct (String.eqb_spec "ct" a) as [<-|Nc]]]]]; cbn [option_map];
  destruct geo; cbn; split; intros H;
  repeat match goal with
    | H : _ \/ _ |- _ => destruct H
    | H : Some _ = Some _ |- _ => injection H as <-
    | H : (_, _) = (_, _) |- _ => injection H as ? ?; subst
    | H : False |- _ => contradiction
    end; try congruence; tauto.
Qed.

Lemma covariance_list_paired axes geo : forall l, covariance_list axes geo = Some l <-> paired geo axes l.
Proof.
  induction axes as [|a r IH]; intros l; cbn [covariance_list].
  - split; intros H; [injection H as <-; constructor|inversion H; auto].
  - split; intros H.
    + destruct (momentum_variable a geo) as [m|] eqn:E; [|discriminate].
      destruct (covariance_list r geo) as [l'|] eqn:E2; [|discriminate]. injection H as <-.
      constructor; [apply momentum_variable_in; auto|]. apply IH; auto.
    + inversion H as [|? m ? l' A B]; subst. apply momentum_variable_in in A. rewrite A.
      apply IH in B. rewrite B. reflexivity.
Qed.

Lemma paired_length geo axes l : paired geo axes l -> List.length l = (2 * List.length axes)%nat.
Proof. induction 1; simpl in *; lia. Qed.

Lemma all_some_map {A B} (f : A -> option B) l : (forall x, In x l -> f x <> None) ->
  exists r, all_some (map f l) = Some r /\ List.length r = List.length l /\
    forall i x y, nth_error l i = Some x -> nth_error r i = Some y -> f x = Some y.
Proof.
  induction l as [|a l IH]; intros H; cbn [map all_some].
  - exists []. repeat split; auto. intros [|i] x y E; discriminate.
  - destruct (f a) as [b|] eqn:E; [|exfalso; apply (H a); simpl; auto].
    destruct IH as (r & R1 & R2 & R3); [intros; apply H; simpl; auto|].
    rewrite R1. exists (b :: r). cbn. repeat split; auto.
    intros [|i] x y X Y; cbn in *; [congruence|eauto].
Qed.

Lemma square_ext n (a b : Matrix) : square n a -> square n b ->
  (forall i j, (i < n)%nat -> (j < n)%nat -> ent a i j = ent b i j) -> a = b.
Proof.
  intros [La Ra] [Lb Rb] H. apply (nth_ext _ _ [] []); [congruence|].
  intros i Hi. assert (Ia : In (nth i a []) a) by (apply nth_In; auto).
  assert (Ib : In (nth i b []) b) by (apply nth_In; lia).
  apply (nth_ext _ _ 0 0); [rewrite (Ra _ Ia), (Rb _ Ib); auto|].
  intros j Hj. apply H; [lia|]. rewrite <- (Ra _ Ia). auto.
Qed.

Lemma square_is_square n m : square n m -> is_square m = true.
Proof.
  intros [L R]. apply forallb_forall. intros r Hr. apply Nat.eqb_eq. rewrite (R r Hr). auto.
Qed.

Lemma table_ent n (f : nat -> nat -> R) : 
  let m := map (fun i => map (f i) (seq 0 n)) (seq 0 n) in
  square n m /\ forall i j, (i < n)%nat -> (j < n)%nat -> ent m i j = f i j.
Proof.
  cbv zeta. split.
  - split; [rewrite map_length, seq_length; auto|]. intros r Hr. apply in_map_iff in Hr.
    destruct Hr as (i & <- & _). rewrite map_length, seq_length. auto.
  - intros i j Hi Hj. unfold ent.
    rewrite (nth_indep _ [] (map (f 0%nat) (seq 0 n))) by (rewrite map_length, seq_length; auto).
    rewrite (map_nth (fun i => map (f i) (seq 0 n))), seq_nth by auto.
    rewrite (nth_indep _ 0 (f (0 + i)%nat 0%nat)) by (rewrite map_length, seq_length; auto).
    rewrite (map_nth (f (0 + i)%nat)), seq_nth by auto. reflexivity.
Qed.

(** Row of the stored matrix for entry i of a covariance list. *)
Lemma paired_rows axes l : paired false axes l ->
  exists ind, all_some (map (index_of axis_list) axes) = Some ind /\ List.length ind = List.length axes /\
    forall i, (i < List.length l)%nat ->
      (nth (i / 2) ind 0 < 5)%nat /\
      nth_error stored_order (2 * nth (i / 2) ind 0 + i mod 2)%nat = nth_error l i.
Proof.
  induction 1 as [|a m axes l Hin H IH].
  - exists []. repeat split; auto; simpl in *; lia.
  - destruct IH as (ind & I1 & I2 & I3).
    assert (K : exists k, index_of axis_list a = Some k /\ (k < 5)%nat /\
        nth_error stored_order (2 * k) = Some a /\ nth_error stored_order (2 * k + 1) = Some m).
    { unfold conjugates, momenta in Hin. cbn in Hin.
      destruct Hin as [E|[E|[E|[E|[E|[]]]]]]; injection E as <- <-;
        [exists 0%nat|exists 1%nat|exists 2%nat|exists 3%nat|exists 4%nat]; repeat split; lia. }
    destruct K as (k & K1 & K2 & K3 & K4).
    exists (k :: ind). cbn [map all_some]. rewrite K1, I1. cbn [option_map List.length]. repeat split; auto.
    + destruct i as [|[|i]]; [exact K2|exact K2|].
      replace (S (S i) / 2)%nat with (S (i / 2)) by (replace (S (S i)) with (i + 1 * 2)%nat by lia; rewrite Nat.div_add by lia; lia).
      cbn [nth]. apply I3. cbn [List.length] in H0. lia.
    + destruct i as [|[|i]]; [cbn [nth]; rewrite Nat.add_0_r; exact K3|exact K4|].
      replace (S (S i) / 2)%nat with (S (i / 2)) by (replace (S (S i)) with (i + 1 * 2)%nat by lia; rewrite Nat.div_add by lia; lia).
      replace (S (S i) mod 2)%nat with (i mod 2)%nat
        by (replace (S (S i)) with (i + 1 * 2)%nat by lia; rewrite Nat.mod_add by lia; reflexivity).
      cbn [nth nth_error]. apply I3. cbn [List.length] in H0. lia.
Qed.
