(** Lemmas about transform_to. *)
From Coq Require Import Reals List Bool String Lia Lra Setoid Morphisms.
From Verif Require Import Num HitcoreModel BunchModel HitPyModel MomentModel BunchNumModel
  CommonModel HitPySpec MomentSpec CommonSpec CommonProofs GridProofs EllipseModel EllipseSpec EllipseProofs
  DetProofs MatProofs TwissProofs TransformModel TransformSpec.
Import ListNotations.
Open Scope R_scope.

Lemma matrix_of_ent n f : square n (matrix_of n f) /\ eqm n (ent (matrix_of n f)) f.
Proof. apply (table_ent n f). Qed.

Lemma matrix_mul_ent n a b : square n (matrix_mul n a b) /\ eqm n (ent (matrix_mul n a b)) (mul n (ent a) (ent b)).
Proof. apply matrix_of_ent. Qed.

Lemma is_shape_square n m : square n m -> is_shape n m = true.
Proof.
  intros [L H]. unfold is_shape. rewrite L, Nat.eqb_refl. apply forallb_forall. intros r Hr.
  apply Nat.eqb_eq. auto.
Qed.

Section One.
  Variables (n : nat) (m : Matrix) (evals : list R) (evecs : Matrix).
  Hypothesis E : eigen_system n m (evals, evecs).
  Hypothesis P : definite n (ent m).

  Let ev i := nth i evals 0.
  Let Q := ent evecs.

  Lemma orth : eqm n (mul n (tr Q) Q) one.
  Proof.
    destruct E as (_ & _ & H & _). intros i j Hi Hj. unfold mul, tr. rewrite H by auto.
    unfold one, unit_row. rewrite Nat.eqb_sym. reflexivity.
  Qed.

  Lemma orth' : eqm n (mul n Q (tr Q)) one.
  Proof. apply left_right_inverse. apply orth. Qed.

  Lemma eigen_eq : eqm n (mul n (ent m) Q) (mul n Q (diag ev)).
  Proof.
    destruct E as (_ & _ & _ & H). intros i j Hi Hj. rewrite mul_diag by auto. apply H; auto.
  Qed.

  Lemma eigen_diag : eqm n (mul n (tr Q) (mul n (ent m) Q)) (diag ev).
  Proof. rewrite eigen_eq, <- mul_assoc, orth, mul_one_l. reflexivity. Qed.

  Lemma evals_pos j : (j < n)%nat -> 0 < ev j.
  Proof.
    intros Hj. pose proof (eigen_diag j j Hj Hj) as D. unfold diag in D. rewrite Nat.eqb_refl in D.
    rewrite <- D. unfold mul, tr.
    assert (NZ : exists i, (i < n)%nat /\ Q i j <> 0).
    { pose proof (orth j j Hj Hj) as O. unfold mul, tr, one, unit_row in O. rewrite Nat.eqb_refl in O.
      assert (X : forall k, (forall i, (i < k)%nat -> Q i j = 0) \/ exists i, (i < k)%nat /\ Q i j <> 0).
      { induction k as [|k [IH|(i & I1 & I2)]]; [left; intros; lia| |right; exists i; split; [lia|auto]].
        destruct (Req_dec (Q k j) 0) as [Z|Z].
        - left. intros i Hi. destruct (Nat.eq_dec i k); [subst; auto|apply IH; lia].
        - right. exists k. split; [lia|auto]. }
      destruct (X n) as [Z|Z]; auto. rewrite sum_n_zero in O; [lra|]. intros i Hi. rewrite Z by auto. ring. }
    pose proof (P (fun i => Q i j) NZ) as H.
    eapply Rlt_le_trans; [exact H|]. right. apply sum_n_ext. intros i Hi.
    rewrite <- sum_n_scale. apply sum_n_ext. intros k Hk. ring.
  Qed.

  Lemma half_spec : exists s, half n (evals, evecs) = inr s /\ square n s /\
    eqm n (ent s) (mul n Q (diag (fun i => sqrt (ev i)))).
  Proof.
    pose proof E as (L & S & _ & _). unfold half. rewrite L, Nat.eqb_refl, (is_shape_square n evecs S).
    replace (forallb _ evals) with true.
    - cbn [andb]. eexists. split; [reflexivity|].
      destruct (matrix_mul_ent n evecs (matrix_of n (fun i j => if Nat.eqb i j then sqrt (nth i evals 0) else 0))) as [A B].
      split; auto. rewrite B. destruct (matrix_of_ent n (fun i j => if Nat.eqb i j then sqrt (nth i evals 0) else 0)) as [_ C].
      rewrite C. reflexivity.
    - symmetry. apply forallb_forall. intros x Hx. destruct (Rlt_dec x 0) as [N|]; auto.
      destruct (In_nth evals x 0 Hx) as (k & K1 & K2). rewrite L in K1. pose proof (evals_pos k K1) as K3.
      unfold ev in K3. rewrite K2 in K3. lra.
  Qed.

  (** S = Q sqrt(D) has S S^T = m. *)
  Lemma half_square s : eqm n (ent s) (mul n Q (diag (fun i => sqrt (ev i)))) ->
    eqm n (mul n (ent s) (tr (ent s))) (ent m).
  Proof.
    intros H. rewrite H, tr_mul, tr_diag, mul_assoc, <- (mul_assoc n (diag _) (diag _)), diag_diag.
    assert (D : eqm n (diag (fun i => sqrt (ev i) * sqrt (ev i))) (diag ev)).
    { intros i j Hi Hj. unfold diag. destruct (Nat.eqb i j); auto. apply sqrt_sqrt. left. apply evals_pos; auto. }
    rewrite D, <- mul_assoc, <- eigen_eq, mul_assoc, orth', mul_one_r. reflexivity.
  Qed.

  (** Any right inverse of S is a left inverse L with L m L^T = 1. *)
  Lemma unite_spec s u : eqm n (ent s) (mul n Q (diag (fun i => sqrt (ev i)))) ->
    eqm n (mul n (ent s) u) one -> eqm n (mul n u (mul n (ent m) (tr u))) one.
  Proof.
    intros H I.
    assert (I2 : eqm n (mul n u (ent s)) one) by (apply left_right_inverse; auto).
    rewrite <- (half_square s H), (mul_assoc n (ent s)), <- (tr_mul n u (ent s)), I2, <- mul_assoc, I2, tr_one, mul_one_l.
    reflexivity.
  Qed.
End One.

Section Main.
  Variables (extra : RWorld -> list nat -> string -> nat -> option RVal)
    (eigh : Matrix -> option (list R * Matrix)) (inv : Matrix -> option Matrix).

  Lemma transform_matrix_spec fx w b ks target origin c e1 e2 :
    let n := List.length ks in (0 < n)%nat ->
    covariance_matrix extra fx w b ks (float_values origin) = inr c -> definite n (ent c) ->
    definite n (ent target) ->
    eigh c = Some e1 -> eigen_system n c e1 -> inverts inv n e1 ->
    eigh target = Some e2 -> eigen_system n target e2 ->
    exists m k, transform_matrix extra eigh inv fx w b ks target origin = inr m /\ square n m /\
      det m * det m = 1 /\ 0 < k /\
      eqm n (mul n (ent m) (mul n (ent c) (tr (ent m)))) (scale k (ent target)).
  Proof.
    intros n Hn C Pc Pt H1 E1 I1 H2 E2. unfold transform_matrix. fold n. rewrite C. cbn [bindE]. rewrite H1.
    destruct e1 as [v1 q1], e2 as [v2 q2].
    destruct (half_spec n c v1 q1 E1 Pc) as (s & S1 & S2 & S3). rewrite S1. cbn [bindE].
    destruct (I1 s S2) as (u & U1 & U2 & o & U3 & U4).
    { intros i j Hi Hj. rewrite S3, mul_diag by auto. reflexivity. }
    rewrite U1, H2. destruct (half_spec n target v2 q2 E2 Pt) as (s2 & T1 & T2 & T3). rewrite T1. cbn [bindE].
    assert (U5 : eqm n (mul n (ent s) (ent u)) one).
    { intros i j Hi Hj. unfold mul. rewrite <- U3 by auto. rewrite U4 by auto. unfold one, unit_row.
      rewrite Nat.eqb_sym. reflexivity. }
    pose proof (unite_spec n c v1 q1 E1 Pc s (ent u) S3 U5) as UU.
    pose proof (half_square n target v2 q2 E2 Pt s2 T3) as TT.
    destruct (matrix_mul_ent n s2 u) as [M1 M2]. set (t := matrix_mul n s2 u) in *.
    assert (TC : eqm n (mul n (ent t) (mul n (ent c) (tr (ent t)))) (ent target)).
    { rewrite M2, tr_mul, mul_assoc.
      rewrite <- (mul_assoc n (ent c) (tr (ent u))), <- (mul_assoc n (ent u)), UU, mul_one_l. exact TT. }
    assert (Dt : det t <> 0).
    { intros Z. unfold det in Z. destruct M1 as [M1 _]. rewrite M1 in Z.
      pose proof (det_eqm n _ _ TC) as D. rewrite det_mul, Z, Rmult_0_l in D.
      pose proof (det_eqm n _ _ TT) as D2. rewrite det_mul in D2. change (det_n n (tr (ent s2))) with (det_n n (fun i j => ent s2 j i)) in D2. rewrite (det_transpose n (ent s2)) in D2.
      assert (D3 : det_n n (ent s2) = 0) by nra.
      assert (det_n n (ent s2) <> 0); [|contradiction].
      rewrite (det_eqm n _ _ T3), det_mul.
      apply Rmult_integral_contrapositive. split.
      - intros Z2. pose proof (det_eqm n _ _ (orth n target v2 q2 E2)) as Z3.
        rewrite det_mul, det_one, Z2 in Z3. lra.
      - assert (G : forall k (d : nat -> R), (forall i, (i < k)%nat -> 0 < d i) -> det_n k (diag d) <> 0).
        { clear. induction k as [|k IH]; intros d Hd; [cbn; lra|]. cbn [det_n].
          rewrite (sum_n_one (S k) _ 0%nat); [|lia|].
          - rewrite (det_ext k _ (diag (fun i => d (S i)))).
            + unfold diag at 1. cbn [Nat.eqb pow]. pose proof (Hd 0%nat ltac:(lia)).
              assert (det_n k (diag (fun i => d (S i))) <> 0) by (apply IH; intros; apply Hd; lia).
              apply Rmult_integral_contrapositive. split; auto. lra.
            + intros i j Hi Hj. reflexivity.
          - intros i Hi N. unfold diag at 1. destruct (Nat.eqb_spec 0 i); [lia|ring]. }
        apply G. intros i Hi. apply sqrt_lt_R0. apply (evals_pos n target v2 q2 E2 Pt); auto. }
    assert (Ab : 0 < Rabs (det t)) by (apply Rabs_pos_lt; auto).
    destruct (root_spec (Rabs (det t)) n) as (r & R1 & R2 & R3); [lra|auto|]. rewrite R1.
    assert (Rn : r <> 0).
    { intros ->. rewrite pow_i in R3 by auto. lra. }
    destruct (Req_EM_T r 0); [contradiction|].
    destruct (matrix_of_ent n (fun i j => ent t i j / r)) as [X1 X2].
    set (m := matrix_of n (fun i j => ent t i j / r)) in *.
    assert (X3 : eqm n (ent m) (scale (/ r) (ent t))).
    { rewrite X2. intros i j _ _. unfold scale. field; auto. }
    exists m, (/ r * / r). split; auto. split; auto. split; [|split].
    - unfold det. destruct X1 as [X1 _]. rewrite X1, (det_eqm n _ _ X3), det_scale.
      assert (K : det_n n (ent t) * det_n n (ent t) = r ^ n * r ^ n).
      { rewrite R3. unfold det. destruct M1 as [M1 _]. rewrite M1.
        unfold Rabs. destruct (Rcase_abs _); ring. }
      transitivity ((/ r) ^ n * (/ r) ^ n * (det_n n (ent t) * det_n n (ent t))); [ring|]. rewrite K.
      rewrite pow_inv. field. apply pow_nonzero; auto.
    - assert (0 < / r) by (apply Rinv_0_lt_compat; lra). apply Rmult_lt_0_compat; auto.
    - rewrite X3, tr_scale, mul_scale_l, !mul_scale_r, scale_scale, TC. reflexivity.
  Qed.
End Main.
