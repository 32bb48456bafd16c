(** Lemmas about DecoupledTransferMatrix. *)
From Coq Require Import Reals List Bool Lia Lra Arith Setoid Morphisms.
From Verif Require Import Num HitPyModel HitPySpec HitPyProofs CommonSpec CommonProofs GridProofs EllipseModel
  DetProofs MatProofs Cplx DecoupleModel DecoupleSpec.
Import ListNotations.
Open Scope R_scope.

Lemma cx_zero_spec z : cx_zero z = true <-> z = c_of 0.
Proof.
  unfold cx_zero, c_of. destruct z as [a b]; cbn [fst snd].
  destruct (Req_EM_T a 0), (Req_EM_T b 0); subst; split; intros; try discriminate; try congruence; auto.
Qed.

Lemma half_even i : (2 * i / 2 = i)%nat.
Proof. rewrite Nat.mul_comm. apply Nat.div_mul. lia. Qed.
Lemma half_odd i : ((2 * i + 1) / 2 = i)%nat.
Proof. replace (2 * i + 1)%nat with (1 + i * 2)%nat by lia. rewrite Nat.div_add by lia. reflexivity. Qed.
Lemma even_even i : Nat.even (2 * i) = true.
Proof. apply Nat.even_spec. exists i. auto. Qed.
Lemma even_odd i : Nat.even (2 * i + 1) = false.
Proof. rewrite <- Nat.negb_odd. replace (Nat.odd (2 * i + 1)) with true; auto. symmetry. apply Nat.odd_spec. exists i. auto. Qed.
Lemma parity p : p = (2 * (p / 2))%nat \/ p = (2 * (p / 2) + 1)%nat.
Proof. pose proof (Nat.div_mod p 2 ltac:(lia)). pose proof (Nat.mod_upper_bound p 2 ltac:(lia)). lia. Qed.

Lemma sum_n_pair n f i : (i < n)%nat -> (forall k, (k < 2 * n)%nat -> (k / 2)%nat <> i -> f k = 0) ->
  sum_n (2 * n) f = f (2 * i)%nat + f (2 * i + 1)%nat.
Proof.
  intros Hi H. 
  assert (G : forall m, csum m (fun k => c_of (f k)) = c_of (sum_n m f)).
  { induction m as [|m IH]; cbn [csum sum_n]; [reflexivity|]. rewrite IH. apply cx_eq; unfold cadd, c_of; simpl; ring. }
  pose proof (csum_pair n (fun k => c_of (f k)) i Hi) as P. rewrite G in P.
  assert (Q : forall k, (k < 2 * n)%nat -> (k / 2)%nat <> i -> c_of (f k) = c_of 0) by (intros k A B; rewrite H; auto).
  specialize (P Q). apply (f_equal fst) in P. unfold cadd, c_of in P. cbn [fst] in P. exact P.
Qed.

Section D.
  Variables (n : nat) (m : nat -> nat -> R) (lam : nat -> Cx) (E : CMat).
  Hypothesis EP : eigen_pairs n m lam E.
  Hypothesis St : stable n lam.
  Hypothesis Fin : forall i, (i < n)%nat -> plane_finite E i.

  Let N := (2 * n)%nat.
  Let beta i := beta_of E i.
  Let alpha i := alpha_of E i.
  Let mu i := angle (lam (2 * i)%nat).
  Let W := t_evector E.

  Lemma block_some i : (i < n)%nat -> exists b a, block_twiss E i = Some (b, a) /\ b <> 0.
  Proof.
    intros Hi. destruct (Fin i Hi) as [F1 F2]. unfold block_twiss, twiss.
    destruct (cx_zero (E (2 * i)%nat i)) eqn:Z; [apply cx_zero_spec in Z; contradiction|].
    replace (S (2 * i)) with (2 * i + 1)%nat by lia.
    destruct (Req_EM_T _ 0); [contradiction|]. do 2 eexists. split; [reflexivity|].
    unfold Rdiv. rewrite Rmult_1_l. apply Rinv_neq_0_compat. auto.
  Qed.

  Lemma beta_nz i : (i < n)%nat -> beta i <> 0.
  Proof. intros Hi. destruct (block_some i Hi) as (b & a & H & Hb). unfold beta, beta_of. rewrite H. auto. Qed.

  Lemma all_twiss_true : all_twiss E n = true.
  Proof.
    assert (G : forall k, (k <= n)%nat -> all_twiss E k = true).
    { induction k as [|k IH]; intros Hk; [reflexivity|]. cbn [all_twiss].
      rewrite IH by lia. destruct (block_some k Hk) as (b & a & -> & _). reflexivity. }
    apply G. auto.
  Qed.

  Lemma csqrt_sq x : cmul (cmath_sqrt x) (cmath_sqrt x) = c_of x.
  Proof.
    unfold cmath_sqrt. destruct (Rlt_dec x 0); apply cx_eq; unfold cmul, c_of; simpl.
    - pose proof (sqrt_sqrt (- x)). lra.
    - ring.
    - pose proof (sqrt_sqrt x). lra.
    - ring.
  Qed.
  Lemma csqrt_nz x : x <> 0 -> cmath_sqrt x <> c_of 0.
  Proof.
    intros Hx H. pose proof (csqrt_sq x) as S. rewrite H in S. apply (f_equal fst) in S. unfold cmul, c_of in S. simpl in S.
    apply Hx. lra.
  Qed.
  Lemma exp_i_nz p : exp_i p <> c_of 0.
  Proof.
    intros H. injection H as H1 H2. pose proof (sin2_cos2 p) as S. unfold Rsqr in S. rewrite H1, H2 in S. lra.
  Qed.

  (** The block of t_evector. *)
  Let sb i := cmath_sqrt (beta i).
  Let ee i := exp_i (angle (E (2 * i)%nat i)).
  Let w0 i := cmul (sb i) (ee i).
  Let w1 i := cmul (cmul (cinv (sb i)) (- alpha i, 1)) (ee i).

  Lemma W_out p q : (p / 2)%nat <> (q / 2)%nat -> W p q = c_of 0.
  Proof. intros H. unfold W, t_evector. destruct (Nat.eqb_spec (p / 2) (q / 2)); [contradiction|reflexivity]. Qed.
  Lemma W_00 i : W (2 * i) (2 * i) = w0 i.
  Proof. unfold W, t_evector. rewrite !half_even, Nat.eqb_refl, !even_even. reflexivity. Qed.
  Lemma W_10 i : W (2 * i + 1) (2 * i) = w1 i.
  Proof. unfold W, t_evector. rewrite !half_even, half_odd, Nat.eqb_refl, even_even, even_odd. reflexivity. Qed.
  Lemma W_01 i : W (2 * i) (2 * i + 1) = cconj (w0 i).
  Proof. unfold W, t_evector. rewrite !half_odd, half_even, Nat.eqb_refl, even_even, even_odd. reflexivity. Qed.
  Lemma W_11 i : W (2 * i + 1) (2 * i + 1) = cconj (w1 i).
  Proof. unfold W, t_evector. rewrite !half_odd, Nat.eqb_refl, even_odd. reflexivity. Qed.

  (** w1 = (i - alpha) / beta w0. *)
  Lemma w1_w0 i : (i < n)%nat -> cmul (c_of (beta i)) (w1 i) = cmul (- alpha i, 1) (w0 i).
  Proof.
    intros Hi. pose proof (csqrt_nz (beta i) (beta_nz i Hi)) as Z. fold (sb i) in Z.
    unfold w1, w0. rewrite <- (csqrt_sq (beta i)). fold (sb i). field. auto.
  Qed.
  Lemma w0_nz i : (i < n)%nat -> w0 i <> c_of 0.
  Proof.
    intros Hi H. pose proof (csqrt_nz (beta i) (beta_nz i Hi)) as Z. fold (sb i) in Z.
    pose proof (exp_i_nz (angle (E (2 * i)%nat i))) as Z2. fold (ee i) in Z2.
    apply Z2. transitivity (cmul (cinv (sb i)) (w0 i)); [unfold w0; field; auto|]. rewrite H. ring.
  Qed.

  (** Real block matrix T. *)
  Definition gamma_of i := (1 + alpha i * alpha i) / beta i.
  Definition Tm : nat -> nat -> R := fun p q =>
    if Nat.eqb (p / 2) (q / 2) then
      rotation_block (mu (q / 2)) (beta (q / 2)) (alpha (q / 2)) (gamma_of (q / 2)) (p mod 2) (q mod 2)
    else 0.

  Lemma mod_even i : ((2 * i) mod 2 = 0)%nat.
  Proof. rewrite Nat.mul_comm. apply Nat.mod_mul. lia. Qed.
  Lemma mod_odd i : ((2 * i + 1) mod 2 = 1)%nat.
  Proof. replace (2 * i + 1)%nat with (1 + i * 2)%nat by lia. rewrite Nat.mod_add by lia. reflexivity. Qed.

  Lemma T_out p q : (p / 2)%nat <> (q / 2)%nat -> Tm p q = 0.
  Proof. intros H. unfold Tm. destruct (Nat.eqb_spec (p / 2) (q / 2)); [contradiction|reflexivity]. Qed.
  Lemma T_00 i : Tm (2 * i) (2 * i) = cos (mu i) + sin (mu i) * alpha i.
  Proof. unfold Tm. rewrite !half_even, Nat.eqb_refl, !mod_even. reflexivity. Qed.
  Lemma T_10 i : Tm (2 * i + 1) (2 * i) = - sin (mu i) * gamma_of i.
  Proof. unfold Tm. rewrite !half_even, half_odd, Nat.eqb_refl, mod_even, mod_odd. reflexivity. Qed.
  Lemma T_01 i : Tm (2 * i) (2 * i + 1) = sin (mu i) * beta i.
  Proof. unfold Tm. rewrite !half_odd, half_even, Nat.eqb_refl, mod_even, mod_odd. reflexivity. Qed.
  Lemma T_11 i : Tm (2 * i + 1) (2 * i + 1) = cos (mu i) - sin (mu i) * alpha i.
  Proof. unfold Tm. rewrite !half_odd, Nat.eqb_refl, mod_odd. reflexivity. Qed.

  Lemma lam_polar i : (i < n)%nat -> lam (2 * i)%nat = (cos (mu i), sin (mu i)).
  Proof.
    intros Hi. pose proof (atan2_polar (snd (lam (2 * i)%nat)) (fst (lam (2 * i)%nat))) as P. cbv zeta in P.
    rewrite (St i Hi), sqrt_1, !Rmult_1_l in P. destruct P as [P1 P2]. apply cx_eq; cbn [fst snd]; auto.
  Qed.

  Lemma T_w0 i : (i < n)%nat ->
    cadd (cmul (c_of (Tm (2 * i) (2 * i))) (w0 i)) (cmul (c_of (Tm (2 * i) (2 * i + 1))) (w1 i)) = cmul (w0 i) (lam (2 * i)%nat).
  Proof.
    intros Hi. rewrite T_00, T_01, (lam_polar i Hi).
    assert (X : cmul (c_of (sin (mu i) * beta i)) (w1 i) = cmul (cmul (c_of (sin (mu i))) (- alpha i, 1)) (w0 i)).
    { transitivity (cmul (c_of (sin (mu i))) (cmul (c_of (beta i)) (w1 i))); [|rewrite w1_w0 by auto; ring].
      apply cx_eq; unfold cmul, c_of; simpl; ring. }
    rewrite X. apply cx_eq; unfold cadd, cmul, c_of; simpl; ring.
  Qed.
  Lemma T_w1 i : (i < n)%nat ->
    cadd (cmul (c_of (Tm (2 * i + 1) (2 * i))) (w0 i)) (cmul (c_of (Tm (2 * i + 1) (2 * i + 1))) (w1 i)) = cmul (w1 i) (lam (2 * i)%nat).
  Proof.
    intros Hi. pose proof (beta_nz i Hi) as B. rewrite T_10, T_11, (lam_polar i Hi).
    assert (Bc : c_of (beta i) <> c_of 0) by (intros H; injection H; auto).
    assert (X : w1 i = cdiv (cmul (- alpha i, 1) (w0 i)) (c_of (beta i))).
    { rewrite <- w1_w0 by auto. field. auto. }
    rewrite X.
    assert (I : cinv (c_of (beta i)) = c_of (/ beta i)).
    { apply cx_eq; unfold cinv, c_of; simpl; field; auto. }
    unfold cdiv. rewrite I. unfold gamma_of. apply cx_eq; unfold cadd, cmul, c_of; simpl; field; auto.
  Qed.

  Lemma cconj_of x : cconj (c_of x) = c_of x.
  Proof. apply cx_eq; unfold cconj, c_of; simpl; ring. Qed.

  (** T W = W Lambda. *)
  Lemma T_W : ceqm N (cmm N (fun i j => c_of (Tm i j)) W) (fun i j => cmul (W i j) (lam j)).
  Proof.
    intros p q Hp Hq. unfold cmm, N. set (i := (q / 2)%nat).
    assert (Hi : (i < n)%nat) by (apply Nat.div_lt_upper_bound; unfold N in Hq; lia).
    rewrite (csum_pair n _ i Hi).
    2:{ intros k Hk Nk. rewrite (W_out k q) by auto. ring. }
    destruct EP as (_ & _ & P). destruct (P i Hi) as [L _].
    destruct (Nat.eq_dec (p / 2) i) as [Ep|Np].
    - destruct (parity p) as [Qp|Qp]; rewrite Ep in Qp; destruct (parity q) as [Qq|Qq]; fold i in Qq; rewrite Qp, Qq.
      + rewrite W_00, W_10. apply T_w0; auto.
      + rewrite W_01, W_11, L. pose proof (f_equal cconj (T_w0 i Hi)) as H.
        rewrite cconj_add, !cconj_mul, !cconj_of in H. exact H.
      + rewrite W_00, W_10. apply T_w1; auto.
      + rewrite W_01, W_11, L. pose proof (f_equal cconj (T_w1 i Hi)) as H.
        rewrite cconj_add, !cconj_mul, !cconj_of in H. exact H.
    - rewrite (T_out p (2 * i)), (T_out p (2 * i + 1)), (W_out p q) by (rewrite ?half_even, ?half_odd; auto). ring.
  Qed.

  (** The inverse of W. *)
  Let dt i := csub (cmul (w0 i) (cconj (w1 i))) (cmul (cconj (w0 i)) (w1 i)).
  Lemma dt_nz i : (i < n)%nat -> dt i <> c_of 0.
  Proof.
    intros Hi H. pose proof (w0_nz i Hi) as Z. pose proof (w1_w0 i Hi) as X. pose proof (beta_nz i Hi) as B.
    (* beta * dt = -2 i |w0|^2 *)
    assert (K : cmul (c_of (beta i)) (dt i) = (0, -2 * (fst (w0 i) * fst (w0 i) + snd (w0 i) * snd (w0 i)))).
    { unfold dt. pose proof (f_equal cconj X) as Xc. rewrite !cconj_mul, cconj_of in Xc.
      transitivity (csub (cmul (w0 i) (cmul (c_of (beta i)) (cconj (w1 i)))) (cmul (cconj (w0 i)) (cmul (c_of (beta i)) (w1 i)))); [ring|].
      rewrite X, Xc. apply cx_eq; unfold csub, cadd, copp, cmul, cconj; simpl; ring. }
    rewrite H in K. apply (f_equal snd) in K. unfold cmul, c_of in K. cbn [fst snd] in K.
    apply (cx_norm _ Z). lra.
  Qed.

  Definition Wi : CMat := fun p q =>
    if Nat.eqb (p / 2) (q / 2) then
      let i := (q / 2)%nat in
      if Nat.even p then (if Nat.even q then cdiv (cconj (w1 i)) (dt i) else cdiv (copp (cconj (w0 i))) (dt i))
      else (if Nat.even q then cdiv (copp (w1 i)) (dt i) else cdiv (w0 i) (dt i))
    else c_of 0.
  Lemma Wi_out p q : (p / 2)%nat <> (q / 2)%nat -> Wi p q = c_of 0.
  Proof. intros H. unfold Wi. destruct (Nat.eqb_spec (p / 2) (q / 2)); [contradiction|reflexivity]. Qed.
  Lemma Wi_00 i : Wi (2 * i) (2 * i) = cdiv (cconj (w1 i)) (dt i).
  Proof. unfold Wi. rewrite !half_even, Nat.eqb_refl, !even_even. reflexivity. Qed.
  Lemma Wi_10 i : Wi (2 * i + 1) (2 * i) = cdiv (copp (w1 i)) (dt i).
  Proof. unfold Wi. rewrite !half_even, half_odd, Nat.eqb_refl, even_even, even_odd. reflexivity. Qed.
  Lemma Wi_01 i : Wi (2 * i) (2 * i + 1) = cdiv (copp (cconj (w0 i))) (dt i).
  Proof. unfold Wi. rewrite !half_odd, half_even, Nat.eqb_refl, even_even, even_odd. reflexivity. Qed.
  Lemma Wi_11 i : Wi (2 * i + 1) (2 * i + 1) = cdiv (w0 i) (dt i).
  Proof. unfold Wi. rewrite !half_odd, Nat.eqb_refl, even_odd. reflexivity. Qed.

  Lemma block_product (A B : CMat) p q : (p < N)%nat -> (q < N)%nat ->
    (forall p q, (p / 2)%nat <> (q / 2)%nat -> B p q = c_of 0) ->
    cmm N A B p q = cadd (cmul (A p (2 * (q / 2))%nat) (B (2 * (q / 2))%nat q))
                         (cmul (A p (2 * (q / 2) + 1)%nat) (B (2 * (q / 2) + 1)%nat q)).
  Proof.
    intros Hp Hq HB. unfold cmm, N.
    assert (Hi : (q / 2 < n)%nat) by (apply Nat.div_lt_upper_bound; unfold N in Hq; lia).
    rewrite (csum_pair n _ (q / 2) Hi); auto. intros k Hk Nk. rewrite (HB k q) by auto. ring.
  Qed.

  Lemma W_inverse : c_inverse N W Wi.
  Proof.
    split; intros p q Hp Hq.
    - rewrite (block_product W Wi p q Hp Hq Wi_out). set (i := (q / 2)%nat).
      assert (Hi : (i < n)%nat) by (apply Nat.div_lt_upper_bound; unfold N in Hq; lia).
      pose proof (dt_nz i Hi) as D. unfold c_one.
      destruct (Nat.eq_dec (p / 2) i) as [Ep|Np].
      + destruct (parity p) as [Qp|Qp]; rewrite Ep in Qp; destruct (parity q) as [Qq|Qq]; fold i in Qq; rewrite Qp, Qq;
          rewrite ?W_00, ?W_01, ?W_10, ?W_11, ?Wi_00, ?Wi_01, ?Wi_10, ?Wi_11;
          match goal with |- context [Nat.eqb ?a ?b] => destruct (Nat.eqb_spec a b); try lia end.
        * transitivity (cdiv (dt i) (dt i)); [unfold dt; field; auto|field; auto].
        * field; auto.
        * field; auto.
        * transitivity (cdiv (dt i) (dt i)); [unfold dt; field; auto|field; auto].
      + rewrite (W_out p (2 * i)), (W_out p (2 * i + 1)) by (rewrite ?half_even, ?half_odd; auto).
        destruct (Nat.eqb_spec p q) as [->|]; [destruct Np; auto|]. ring.
    - rewrite (block_product Wi W p q Hp Hq W_out). set (i := (q / 2)%nat).
      assert (Hi : (i < n)%nat) by (apply Nat.div_lt_upper_bound; unfold N in Hq; lia).
      pose proof (dt_nz i Hi) as D. unfold c_one.
      destruct (Nat.eq_dec (p / 2) i) as [Ep|Np].
      + destruct (parity p) as [Qp|Qp]; rewrite Ep in Qp; destruct (parity q) as [Qq|Qq]; fold i in Qq; rewrite Qp, Qq;
          rewrite ?W_00, ?W_01, ?W_10, ?W_11, ?Wi_00, ?Wi_01, ?Wi_10, ?Wi_11;
          match goal with |- context [Nat.eqb ?a ?b] => destruct (Nat.eqb_spec a b); try lia end.
        * transitivity (cdiv (dt i) (dt i)); [unfold dt; field; auto|field; auto].
        * field; auto.
        * field; auto.
        * transitivity (cdiv (dt i) (dt i)); [unfold dt; field; auto|field; auto].
      + rewrite (Wi_out p (2 * i)), (Wi_out p (2 * i + 1)) by (rewrite ?half_even, ?half_odd; auto).
        destruct (Nat.eqb_spec p q) as [->|]; [destruct Np; auto|]. ring.
  Qed.

  (** ---- the decoupling ---- *)
  Variable inv : CMat -> option CMat.
  Hypothesis Inv : finds_inverses N inv.

  Lemma W_conj p q : (q < N)%nat -> cconj (W p q) = W p (if Nat.even q then q + 1 else q - 1)%nat.
  Proof.
    intros Hq. set (i := (q / 2)%nat). destruct (Nat.eq_dec (p / 2) i) as [Ep|Np].
    - destruct (parity p) as [Qp|Qp]; rewrite Ep in Qp; destruct (parity q) as [Qq|Qq]; fold i in Qq; rewrite Qp, Qq;
        rewrite ?even_even, ?even_odd; rewrite ?Nat.add_sub;
        rewrite ?W_00, ?W_01, ?W_10, ?W_11, ?cconj_conj; reflexivity.
    - rewrite (W_out p q) by auto. rewrite cconj_of. symmetry. apply W_out.
      destruct (parity q) as [Qq|Qq]; fold i in Qq; rewrite Qq.
      + rewrite even_even, half_odd. auto.
      + rewrite even_odd, Nat.add_sub, half_even. auto.
  Qed.
  Lemma E_conj p q : (p < N)%nat -> (q < N)%nat -> cconj (E p q) = E p (if Nat.even q then q + 1 else q - 1)%nat.
  Proof.
    intros Hp Hq. destruct EP as (_ & _ & P). set (i := (q / 2)%nat).
    assert (Hi : (i < n)%nat) by (apply Nat.div_lt_upper_bound; unfold N in Hq; lia).
    destruct (P i Hi) as [_ L]. specialize (L p Hp).
    destruct (parity q) as [Qq|Qq]; fold i in Qq; rewrite Qq.
    - rewrite even_even, L. reflexivity.
    - rewrite even_odd, Nat.add_sub, L, cconj_conj. reflexivity.
  Qed.

  Lemma decoupling_spec : exists d, get_decoupling inv n m lam E = inr d /\
    d_dim d = n /\ d_m d = m /\ (forall i, d_phase d i = mu i) /\ d_v_t d = v_t E /\
    (forall p q, (p < N)%nat -> (q < N)%nat -> snd (d_r d p q) = 0) /\
    ceqm N (d_t d) (fun p q => c_of (Tm p q)) /\
    eqm N (mul N m (fun p q => fst (d_r d p q))) (mul N (fun p q => fst (d_r d p q)) Tm) /\
    (exists Y, eqm N (mul N (fun p q => fst (d_r d p q)) Y) one) /\
    ceqm N (cmm N (d_r d) W) E.
  Proof.
    unfold get_decoupling. rewrite all_twiss_true. fold N. fold W.
    destruct (Inv W Wi W_inverse) as (X & -> & X1 & X2).
    destruct EP as (EM & (F & F1 & F2) & _). fold N in EM, F1, F2.
    assert (Rinv : c_inverse N (cmm N E X) (cmm N W F)).
    { split.
      - rewrite cmm_assoc, <- (cmm_assoc N X), X2, cmm_one_l. exact F1.
      - rewrite cmm_assoc, <- (cmm_assoc N F), F2, cmm_one_l. exact X1. }
    destruct (Inv _ _ Rinv) as (Y & -> & Y1 & Y2).
    eexists. split; [reflexivity|]. cbn [d_dim d_m d_phase d_v_t d_r d_t].
    split; auto. split; auto. split; [intros; reflexivity|]. split; auto.
    set (Rr := cmm N E X) in *. set (Mc := fun i j => c_of (m i j)) in *.
    assert (RW : ceqm N (cmm N Rr W) E).
    { unfold Rr. rewrite cmm_assoc, X2, cmm_one_r. reflexivity. }
    (* R is real *)
    assert (Rreal : ceqm N (fun p q => cconj (Rr p q)) Rr).
    { assert (C : ceqm N (cmm N (fun p q => cconj (Rr p q)) W) E).
      { intros p q Hp Hq. set (q' := (if Nat.even q then q + 1 else q - 1)%nat).
        assert (Hq' : (q' < N)%nat).
        { unfold q'. destruct (parity q) as [Qq|Qq]; rewrite Qq.
          - rewrite even_even. unfold N in *. lia.
          - rewrite even_odd. unfold N in *. lia. }
        pose proof (f_equal cconj (RW p q' Hp Hq')) as H. rewrite E_conj in H by auto.
        unfold cmm in H. rewrite cconj_sum in H. unfold cmm.
        assert (B : (if Nat.even q' then q' + 1 else q' - 1)%nat = q).
        { unfold q'. destruct (parity q) as [Qq|Qq]; rewrite Qq.
          - rewrite even_even, even_odd. lia.
          - rewrite even_odd. replace (2 * (q / 2) + 1 - 1)%nat with (2 * (q / 2))%nat by lia. rewrite even_even. lia. }
        rewrite B in H. rewrite <- H. apply csum_ext. intros k Hk. rewrite cconj_mul, W_conj, B by auto. reflexivity. }
      rewrite <- RW in C.
      assert (C2 : ceqm N (cmm N (cmm N (fun p q => cconj (Rr p q)) W) X) (cmm N (cmm N Rr W) X)) by (rewrite C; reflexivity).
      rewrite !cmm_assoc, X1, !cmm_one_r in C2. exact C2. }
    assert (Rim : forall p q, (p < N)%nat -> (q < N)%nat -> snd (Rr p q) = 0).
    { intros p q Hp Hq. pose proof (f_equal snd (Rreal p q Hp Hq)) as H. unfold cconj in H. cbn [snd] in H. lra. }
    split; auto.
    (* T *)
    assert (TR : ceqm N (cmm N Mc Rr) (cmm N Rr (fun p q => c_of (Tm p q)))).
    { assert (L1 : ceqm N (cmm N Mc Rr) (cmm N (fun i j => cmul (E i j) (lam j)) X)).
      { unfold Rr. rewrite <- cmm_assoc, EM. reflexivity. }
      assert (L2 : ceqm N (fun i j => cmul (E i j) (lam j)) (cmm N Rr (fun i j => cmul (W i j) (lam j)))).
      { intros i j Hi Hj. rewrite <- (RW i j Hi Hj). unfold cmm.
        transitivity (cmul (lam j) (csum N (fun k => cmul (Rr i k) (W k j)))); [ring|].
        rewrite <- csum_mul. apply csum_ext. intros; ring. }
      rewrite L1, L2, <- T_W, !cmm_assoc, X1, cmm_one_r. reflexivity. }
    split; [|split; [|split]].
    - rewrite TR, <- cmm_assoc, Y2, cmm_one_l. reflexivity.
    - intros p q Hp Hq. pose proof (f_equal fst (TR p q Hp Hq)) as H. unfold cmm in H.
      assert (G : forall k f, fst (csum k f) = sum_n k (fun i => fst (f i))).
      { induction k as [|k IH]; intros f; cbn [csum sum_n]; [reflexivity|]. unfold cadd. cbn [fst]. rewrite IH. reflexivity. }
      rewrite !G in H. unfold mul.
      etransitivity; [|etransitivity; [exact H|]]; apply sum_n_ext; intros k Hk; unfold Mc, cmul, c_of; cbn [fst snd]; ring.
    - exists (fun p q => fst (Y p q)). intros p q Hp Hq. pose proof (f_equal fst (Y1 p q Hp Hq)) as H. unfold cmm in H.
      assert (G : forall k f, fst (csum k f) = sum_n k (fun i => fst (f i))).
      { induction k as [|k IH]; intros f; cbn [csum sum_n]; [reflexivity|]. unfold cadd. cbn [fst]. rewrite IH. reflexivity. }
      rewrite G in H. unfold mul.
      etransitivity; [|etransitivity; [exact H|]].
      + apply sum_n_ext. intros k Hk. unfold cmul. cbn [fst snd]. rewrite (Rim p k Hp Hk). ring.
      + unfold c_one, one, unit_row. destruct (Nat.eqb_spec p q), (Nat.eqb_spec q p); try congruence; reflexivity.
    - exact RW.
  Qed.

  (** ---- the ellipse ---- *)
  Variable eps : nat -> R.
  Let D : CMat := c_diag (fun c => c_of (eps (c / 2) / 2)).
  Let Vc : CMat := fun p q => c_of (if Nat.eqb (p / 2) (q / 2) then v_t E p q * eps (q / 2) else v_t E p q).

  Lemma w_norm i : (i < n)%nat ->
    let b := beta i in let a := alpha i in
    let sg := if Rlt_dec b 0 then -1 else 1 in
    fst (w0 i) * fst (w0 i) + snd (w0 i) * snd (w0 i) = sg * b /\
    fst (w0 i) * fst (w1 i) + snd (w0 i) * snd (w1 i) = - sg * a /\
    fst (w1 i) * fst (w1 i) + snd (w1 i) * snd (w1 i) = sg * (1 + a * a) / b.
  Proof.
    intros Hi b a sg. pose proof (beta_nz i Hi) as B. fold b in B.
    assert (H0 : fst (w0 i) * fst (w0 i) + snd (w0 i) * snd (w0 i) = sg * b).
    { unfold w0, sb, ee, exp_i, cmath_sqrt. fold b. set (t := angle _). pose proof (sin2_cos2 t) as S. unfold Rsqr in S.
      unfold sg. destruct (Rlt_dec b 0); unfold cmul; cbn [fst snd].
      - pose proof (sqrt_sqrt (- b) ltac:(lra)) as Q. set (z := sqrt (- b)) in *. clearbody z t.
        transitivity (z * z * (sin t * sin t + cos t * cos t)); [ring|]. rewrite S, Q. ring.
      - pose proof (sqrt_sqrt b ltac:(lra)) as Q. set (z := sqrt b) in *. clearbody z t.
        transitivity (z * z * (sin t * sin t + cos t * cos t)); [ring|]. rewrite S, Q. ring. }
    assert (X : w1 i = (- (a * fst (w0 i) + snd (w0 i)) / b, (fst (w0 i) - a * snd (w0 i)) / b)).
    { pose proof (w1_w0 i Hi) as X. fold b a in X. pose proof (f_equal fst X) as X1. pose proof (f_equal snd X) as X2.
      unfold cmul, c_of in X1, X2. cbn [fst snd] in X1, X2. apply cx_eq; cbn [fst snd].
      - apply (Rmult_eq_reg_l b); auto. transitivity (b * fst (w1 i) - 0 * snd (w1 i)); [ring|]. rewrite X1. field. auto.
      - apply (Rmult_eq_reg_l b); auto. transitivity (b * snd (w1 i) + 0 * fst (w1 i)); [ring|]. rewrite X2. field. auto. }
    set (x := fst (w0 i)) in *. set (y := snd (w0 i)) in *. clearbody x y. rewrite X. cbn [fst snd]. split; auto.
    split.
    - transitivity (- a / b * (x * x + y * y)); [field; auto|]. rewrite H0. field; auto.
    - transitivity ((1 + a * a) / (b * b) * (x * x + y * y)); [field; auto|]. rewrite H0. field; auto.
  Qed.

  Lemma Vc_W : ceqm N Vc (cmm N (cmm N W D) (fun c q => cconj (W q c))).
  Proof.
    intros p q Hp Hq. set (i := (q / 2)%nat).
    assert (Hi : (i < n)%nat) by (apply Nat.div_lt_upper_bound; unfold N in Hq; lia).
    unfold cmm at 1. unfold N at 1. rewrite (csum_pair n _ i Hi).
    2:{ intros k Hk Nk. rewrite (W_out q k) by (fold i; auto). rewrite cconj_of. ring. }
    unfold D. rewrite !cmm_diag by (unfold N; lia). rewrite half_even, half_odd.
    unfold Vc. destruct (w_norm i Hi) as (N0 & N1 & N2). fold (beta_of E i) (alpha_of E i) in N0, N1, N2.
    destruct (Nat.eqb_spec (p / 2) (q / 2)) as [Ep|Np].
    - fold i in Ep. fold i. unfold v_t. fold i. rewrite Ep, Nat.eqb_refl.
      destruct (parity p) as [Qp|Qp]; rewrite Ep in Qp; destruct (parity q) as [Qq|Qq]; fold i in Qq; rewrite Qp, Qq;
        rewrite ?even_even, ?even_odd, ?half_even, ?half_odd, ?W_00, ?W_01, ?W_10, ?W_11, ?cconj_conj.
      + fold (beta i). rewrite <- N0. apply cx_eq; unfold cadd, cmul, cconj, c_of; cbn [fst snd]; field.
      + fold (alpha i) (beta i). rewrite <- N1. apply cx_eq; unfold cadd, cmul, cconj, c_of; cbn [fst snd]; field.
      + fold (alpha i) (beta i). rewrite <- N1. apply cx_eq; unfold cadd, cmul, cconj, c_of; cbn [fst snd]; field.
      + fold (alpha i) (beta i). cbv zeta. rewrite <- N2. apply cx_eq; unfold cadd, cmul, cconj, c_of; cbn [fst snd]; field.
    - unfold v_t. destruct (Nat.eqb_spec (p / 2) (q / 2)); [contradiction|].
      rewrite (W_out p (2 * i)), (W_out p (2 * i + 1)) by (rewrite ?half_even, ?half_odd; auto). ring.
  Qed.

  Lemma ellipse_spec (Rm : CMat) :
    (forall p q, (p < N)%nat -> (q < N)%nat -> snd (Rm p q) = 0) -> ceqm N (cmm N Rm W) E ->
    ceqm N (cmm N (cmm N Rm Vc) (fun i j => Rm j i)) (cmm N (cmm N E D) (fun c q => cconj (E q c))).
  Proof.
    intros Re RW.
    assert (RH : ceqm N (fun i j => Rm j i) (fun i j => cconj (Rm j i))).
    { intros i j Hi Hj. apply cx_eq; unfold cconj; cbn [fst snd]; auto. rewrite Re; auto. ring. }
    assert (EH : ceqm N (cmm N (fun c q => cconj (W q c)) (fun i j => cconj (Rm j i))) (fun c q => cconj (E q c))).
    { intros c q Hc Hq. rewrite <- (RW q c Hq Hc). unfold cmm. rewrite cconj_sum. apply csum_ext. intros k Hk.
      rewrite cconj_mul. ring. }
    rewrite RH, Vc_W, <- (cmm_assoc N Rm), <- (cmm_assoc N Rm W D), RW, cmm_assoc, EH. reflexivity.
  Qed.

  Lemma sum_pairs k f : sum_n (2 * k) f = sum_n k (fun i => f (2 * i)%nat + f (2 * i + 1)%nat).
  Proof.
    induction k as [|k IH]; [reflexivity|]. replace (2 * S k)%nat with (S (S (2 * k))) by lia. cbn [sum_n]. rewrite IH.
    replace (2 * k + 1)%nat with (S (2 * k)) by lia. ring.
  Qed.

  Lemma ellipse_value p q : (p < N)%nat -> (q < N)%nat ->
    fst (cmm N (cmm N E D) (fun c q => cconj (E q c)) p q) =
    sum_n n (fun i => eps i * (fst (E p (2 * i)%nat) * fst (E q (2 * i)%nat) + snd (E p (2 * i)%nat) * snd (E q (2 * i)%nat))).
  Proof.
    intros Hp Hq. unfold cmm at 1.
    assert (G : forall k f, fst (csum k f) = sum_n k (fun i => fst (f i))).
    { induction k as [|k IH]; intros f; cbn [csum sum_n]; [reflexivity|]. unfold cadd. cbn [fst]. rewrite IH. reflexivity. }
    rewrite G. unfold N at 1. rewrite sum_pairs. apply sum_n_ext. intros i Hi.
    unfold D. rewrite !cmm_diag by (unfold N; lia). rewrite half_even, half_odd.
    destruct EP as (_ & _ & P). destruct (P i Hi) as [_ L]. rewrite (L p Hp), (L q Hq).
    unfold cmul, cconj, c_of. cbn [fst snd]. field.
  Qed.
End D.
