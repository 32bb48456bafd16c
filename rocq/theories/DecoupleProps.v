(** C53: optics of decoupled transfer matrices. *)
From Coq Require Import Reals List Bool Lia Lra Arith Setoid Morphisms ClassicalEpsilon.
From Verif Require Import Num HitPyModel HitPySpec HitPyProofs CommonSpec CommonProofs GridProofs EllipseModel EllipseProofs
  DetProofs MatProofs TransformSpec Cplx DecoupleModel DecoupleSpec DecoupleProofs.
Import ListNotations.
Open Scope R_scope.

(** A stable, coupled transfer matrix, its eigenvectors and a sound inversion. *)
Definition lattice (eig : list (list R) -> option ((nat -> Cx) * CMat)) (inv : CMat -> option CMat)
    (n : nat) (m : list (list R)) (lam : nat -> Cx) (E : CMat) : Prop :=
  (1 <= n)%nat /\ shape (2 * n) (2 * n) m /\ det_n (2 * n) (ent m) = 1 /\
  eig m = Some (lam, E) /\ eigen_pairs n (ent m) lam E /\ stable n lam /\
  (forall i, (i < n)%nat -> plane_finite E i) /\ finds_inverses (2 * n) inv.

Lemma construct_ok eig inv n m lam E : (1 <= n)%nat -> shape (2 * n) (2 * n) m -> det_n (2 * n) (ent m) = 1 ->
  eig m = Some (lam, E) -> construct eig inv false m = get_decoupling inv n (ent m) lam E.
Proof.
  intros Hn [L Rw] D Eg. unfold construct. rewrite L.
  assert (Q : is_square m = true).
  { unfold is_square. apply forallb_forall. intros r Hr. apply Nat.eqb_eq. rewrite L. auto. }
  rewrite Q. cbn [negb andb]. rewrite half_even, (Nat.mul_comm n 2), Nat.eqb_refl. cbn [negb].
  destruct (Rlt_dec _ _) as [B|B].
  - exfalso. unfold det in B. rewrite L, D, Rminus_diag_eq, Rabs_R0 in B by reflexivity. unfold det_tolerance in B. lra.
  - rewrite Eg. reflexivity.
Qed.

(** The optics of each plane are those of a periodic line: beta is positive,
    beta gamma - alpha^2 = 1 and the phase is in (-pi, pi].  In the coordinates given by the
    columns of the real, invertible matrix r, m is made of independent two by two blocks,
    each the rotation by the phase returned or by its opposite. *)
Theorem C53_optics : forall eig inv n m lam E,
  lattice eig inv n m lam E ->
  exists d, construct eig inv false m = inr d /\
    (forall p q, (p < 2 * n)%nat -> (q < 2 * n)%nat -> snd (d_r d p q) = 0) /\
    (exists Y, eqm (2 * n) (mul (2 * n) (fun p q => fst (d_r d p q)) Y) one) /\
    eqm (2 * n) (mul (2 * n) (ent m) (fun p q => fst (d_r d p q)))
                (mul (2 * n) (fun p q => fst (d_r d p q)) (fun p q => fst (d_t d p q))) /\
    (forall p q, (p < 2 * n)%nat -> (q < 2 * n)%nat -> (p / 2)%nat <> (q / 2)%nat -> d_t d p q = c_of 0) /\
    forall i, (i < n)%nat ->
      let beta := get_beta d i in let alpha := get_alpha d i in let gamma := get_gamma d i in
      0 < beta /\ beta * gamma - alpha * alpha = 1 /\
      - PI < get_phase_advance d i <= PI /\
      exists mu, (mu = get_phase_advance d i \/ mu = - get_phase_advance d i) /\
        forall p q, (p < 2)%nat -> (q < 2)%nat ->
          d_t d (2 * i + p)%nat (2 * i + q)%nat = c_of (rotation_block mu beta alpha gamma p q).
Proof.
  intros eig inv n m lam E (Hn & Sh & Dt & Eg & EP & St & Fin & Inv).
  rewrite (construct_ok eig inv n m lam E Hn Sh Dt Eg).
  destruct (decoupling_spec n (ent m) lam E EP St Fin inv Inv) as (d & Ed & _ & _ & Ph & Vt & Rr & Tm' & MR & RY & _).
  exists d. split; auto. split; auto. split; auto. split.
  { rewrite MR. intros p q Hp Hq. unfold mul. apply sum_n_ext. intros k Hk. rewrite (Tm' k q Hk Hq). reflexivity. }
  split. { intros p q Hp Hq N. rewrite (Tm' p q Hp Hq), T_out by auto. reflexivity. }
  intros i Hi. pose proof (beta_nz n E Fin i Hi) as Bz.
  unfold get_beta, get_alpha, get_gamma, get_phase_advance. rewrite Vt, Ph. unfold v_t.
  rewrite half_even, half_odd, Nat.eqb_refl, even_even, even_odd. cbv zeta.
  set (b := beta_of E i) in *. set (a := alpha_of E i) in *.
  set (sg := if Rlt_dec b 0 then -1 else 1).
  assert (Sg : sg * sg = 1) by (unfold sg; destruct (Rlt_dec b 0); ring).
  split. { unfold sg. destruct (Rlt_dec b 0); lra. }
  split. { replace (sg * b * (sg * (1 + a * a) / b)) with (sg * sg * (1 + a * a)) by (field; auto).
           replace (- (- sg * a) * - (- sg * a)) with (sg * sg * (a * a)) by ring. rewrite Sg. ring. }
  split. { apply atan2_range. }
  exists (sg * angle (lam (2 * i)%nat)). split. { unfold sg. destruct (Rlt_dec b 0); [right|left]; ring. }
  intros p q Hp Hq. rewrite (Tm' (2 * i + p)%nat (2 * i + q)%nat) by lia. f_equal.
  assert (C : cos (sg * angle (lam (2 * i)%nat)) = cos (angle (lam (2 * i)%nat))).
  { unfold sg. destruct (Rlt_dec b 0); [|f_equal; ring]. rewrite <- cos_neg. f_equal. ring. }
  assert (Sn : sin (sg * angle (lam (2 * i)%nat)) = sg * sin (angle (lam (2 * i)%nat))).
  { unfold sg. destruct (Rlt_dec b 0); [|rewrite !Rmult_1_l; auto]. 
    replace (-1 * angle (lam (2 * i)%nat)) with (- angle (lam (2 * i)%nat)) by ring. rewrite sin_neg. ring. }
  set (mu := angle (lam (2 * i)%nat)) in *.
  destruct p as [|[|p]]; [| |lia]; (destruct q as [|[|q]]; [| |lia]); rewrite ?Nat.add_0_r;
    unfold rotation_block; rewrite ?C, ?Sn, ?(T_00 n), ?(T_01 n), ?(T_10 n), ?(T_11 n); unfold gamma_of; fold a b mu.
  - transitivity (cos mu + sg * sg * sin mu * a); [rewrite Sg; ring|ring].
  - transitivity (sg * sg * sin mu * b); [rewrite Sg; ring|ring].
  - transitivity (- (sg * sg) * sin mu * ((1 + a * a) / b)); [rewrite Sg; ring|field; auto].
  - transitivity (cos mu - sg * sg * sin mu * a); [rewrite Sg; ring|ring].
Qed.
Print Assumptions C53_optics.

(** With one plane, m itself is the rotation by the phase returned, or by its opposite. *)
Theorem C53_one_plane : forall eig inv m lam E,
  lattice eig inv 1 m lam E ->
  exists d, construct eig inv false m = inr d /\
    exists mu, (mu = get_phase_advance d 0 \/ mu = - get_phase_advance d 0) /\
      forall p q, (p < 2)%nat -> (q < 2)%nat ->
        ent m p q = rotation_block mu (get_beta d 0) (get_alpha d 0) (get_gamma d 0) p q.
Proof.
  intros eig inv m lam E Lt. destruct (C53_optics eig inv 1 m lam E Lt) as (d & C & _ & _ & _ & _ & O).
  exists d. split; auto. destruct (O 0%nat ltac:(lia)) as (_ & _ & _ & mu & Hmu & B). exists mu. split; auto. clear O.
  destruct Lt as (Hn & Sh & Dt & Eg & EP & St & Fin & Inv).
  rewrite (construct_ok eig inv 1 m lam E Hn Sh Dt Eg) in C.
  destruct (decoupling_spec 1 (ent m) lam E EP St Fin inv Inv) as (d' & Ed & _ & _ & _ & _ & _ & Tm' & _).
  rewrite C in Ed. injection Ed as <-.
  intros p q Hp Hq. specialize (B p q Hp Hq). change (2 * 0 + p)%nat with p in B. change (2 * 0 + q)%nat with q in B.
  rewrite (Tm' p q Hp Hq) in B. injection B as <-.
  pose proof (lam_polar 1 lam St 0%nat ltac:(lia)) as Pl. change (2 * 0)%nat with 0%nat in Pl.
  destruct EP as (EM & _ & _). pose proof (EM 0%nat 0%nat ltac:(lia) ltac:(lia)) as M0. pose proof (EM 1%nat 0%nat ltac:(lia) ltac:(lia)) as M1.
  unfold cmm in M0, M1. change (2 * 1)%nat with 2%nat in *. cbn [csum] in M0, M1. rewrite Pl in M0, M1. set (mu' := angle (lam 0%nat)) in *.
  destruct (Fin 0%nat ltac:(lia)) as [F1 F2]. change (2 * 0 + 1)%nat with 1%nat in *. change (2 * 0)%nat with 0%nat in *.
  set (r := cdiv (E 1%nat 0%nat) (E 0%nat 0%nat)) in *.
  assert (E1 : E 1%nat 0%nat = cmul r (E 0%nat 0%nat)) by (unfold r; field; auto).
  rewrite E1 in M0, M1. set (x := E 0%nat 0%nat) in *.
  assert (Tw : block_twiss E 0 = Some (1 / snd r, - (1 / snd r) * fst r)).
  { unfold block_twiss, twiss. change (2 * 0)%nat with 0%nat. fold x. destruct (cx_zero x) eqn:Z; [apply cx_zero_spec in Z; contradiction|].
    fold r. destruct (Req_EM_T (snd r) 0); [contradiction|reflexivity]. }
  assert (N0 : cadd (c_of (ent m 0 0)) (cmul (c_of (ent m 0 1)) r) = (cos mu', sin mu')).
  { transitivity (cmul (cinv x) (cadd (cadd (c_of 0) (cmul (c_of (ent m 0 0)) x)) (cmul (c_of (ent m 0 1)) (cmul r x)))); [field; auto|].
    rewrite M0. unfold mu'. field. auto. }
  assert (N1 : cadd (c_of (ent m 1 0)) (cmul (c_of (ent m 1 1)) r) = cmul r (cos mu', sin mu')).
  { transitivity (cmul (cinv x) (cadd (cadd (c_of 0) (cmul (c_of (ent m 1 0)) x)) (cmul (c_of (ent m 1 1)) (cmul r x)))); [field; auto|].
    rewrite M1. unfold mu'. field. auto. }
  pose proof (f_equal fst N0) as A0. pose proof (f_equal snd N0) as A1. pose proof (f_equal fst N1) as A2. pose proof (f_equal snd N1) as A3.
  unfold cadd, cmul, c_of in A0, A1, A2, A3. cbn [fst snd] in A0, A1, A2, A3.
  assert (X01 : ent m 0 1 = sin mu' / snd r).
  { apply (Rmult_eq_reg_r (snd r)); auto. transitivity (sin mu'); [lra|field; auto]. }
  assert (X11 : ent m 1 1 = (fst r * sin mu' + snd r * cos mu') / snd r).
  { apply (Rmult_eq_reg_r (snd r)); auto. transitivity (fst r * sin mu' + snd r * cos mu'); [lra|field; auto]. }
  destruct p as [|[|p]]; [| |lia]; (destruct q as [|[|q]]; [| |lia]); unfold Tm; cbn [Nat.eqb Nat.div Nat.modulo Nat.divmod fst snd Nat.sub];
    unfold rotation_block, gamma_of, beta_of, alpha_of; change (2 * 0)%nat with 0%nat; fold mu'; rewrite Tw.
  - transitivity (cos mu' - ent m 0 1 * fst r); [lra|]. rewrite X01. field. auto.
  - rewrite X01. field. auto.
  - transitivity (fst r * cos mu' - snd r * sin mu' - ent m 1 1 * fst r); [lra|]. rewrite X11. field. auto.
  - rewrite X11. field. auto.
Qed.
Print Assumptions C53_one_plane.

Lemma v_m_value eig inv n m lam E d (eps : list R) :
  lattice eig inv n m lam E -> construct eig inv false m = inr d -> List.length eps = n ->
  exists V, get_v_m d eps = inr V /\ forall p q, (p < 2 * n)%nat -> (q < 2 * n)%nat ->
    V p q = sum_n n (fun i => nth i eps 0 *
      (fst (E p (2 * i)%nat) * fst (E q (2 * i)%nat) + snd (E p (2 * i)%nat) * snd (E q (2 * i)%nat))).
Proof.
  intros (Hn & Sh & Dt & Eg & EP & St & Fin & Inv) C L.
  rewrite (construct_ok eig inv n m lam E Hn Sh Dt Eg) in C.
  destruct (decoupling_spec n (ent m) lam E EP St Fin inv Inv) as (d' & Ed & Dm & _ & _ & Vt & Rr & _ & _ & _ & RW).
  rewrite C in Ed. injection Ed as <-.
  unfold get_v_m. rewrite Dm, L, Nat.eqb_refl. eexists. split; [reflexivity|]. intros p q Hp Hq. rewrite Vt.
  rewrite <- (ellipse_value n (ent m) lam E EP (fun i => nth i eps 0) p q Hp Hq).
  f_equal. exact (ellipse_spec n E Fin (fun i => nth i eps 0) (d_r d) Rr RW p q Hp Hq).
Qed.

Lemma sum_n_nonneg k f : (forall i, (i < k)%nat -> 0 <= f i) -> 0 <= sum_n k f.
Proof.
  induction k as [|k IH]; intros H; cbn [sum_n]; [lra|]. pose proof (H k ltac:(lia)).
  assert (0 <= sum_n k f) by (apply IH; intros; apply H; lia). lra.
Qed.
Lemma sum_n_zero_terms k f : (forall i, (i < k)%nat -> 0 <= f i) -> 0 = sum_n k f -> forall i, (i < k)%nat -> f i = 0.
Proof.
  induction k as [|k IH]; intros H Z i Hi; [lia|]. cbn [sum_n] in Z. pose proof (H k ltac:(lia)).
  assert (0 <= sum_n k f) by (apply sum_n_nonneg; intros; apply H; lia).
  destruct (Nat.eq_dec i k) as [->|]; [lra|]. apply IH; [intros; apply H; lia|lra|lia].
Qed.

(** The ellipse returned for positive emittances is symmetric, positive definite, and carried
    to itself by m. *)
Theorem C53_periodic : forall eig inv n m lam E d (eps : list R),
  lattice eig inv n m lam E -> construct eig inv false m = inr d ->
  List.length eps = n -> (forall e, In e eps -> 0 < e) ->
  exists V, get_v_m d eps = inr V /\
    (forall p q, (p < 2 * n)%nat -> (q < 2 * n)%nat -> V p q = V q p) /\
    definite (2 * n) V /\
    forall p q, (p < 2 * n)%nat -> (q < 2 * n)%nat ->
      sum_n (2 * n) (fun a => sum_n (2 * n) (fun b => ent m p a * V a b * ent m q b)) = V p q.
Proof.
  intros eig inv n m lam E d eps Lt C L Pe.
  destruct (v_m_value eig inv n m lam E d eps Lt C L) as (V & EV & HV). exists V. split; auto.
  destruct Lt as (Hn & Sh & Dt & Eg & EP & St & Fin & Inv).
  set (u := fun p i => fst (E p (2 * i)%nat)) in *. set (v := fun p i => snd (E p (2 * i)%nat)) in *.
  assert (HV' : forall p q, (p < 2 * n)%nat -> (q < 2 * n)%nat ->
            V p q = sum_n n (fun i => nth i eps 0 * (u p i * u q i + v p i * v q i))) by exact HV.
  clear HV. rename HV' into HV.
  assert (Quad : forall x y : nat -> R,
    sum_n (2 * n) (fun a => sum_n (2 * n) (fun b => x a * V a b * y b)) =
    sum_n n (fun i => nth i eps 0 * (sum_n (2 * n) (fun a => x a * u a i) * sum_n (2 * n) (fun b => y b * u b i) +
                                     sum_n (2 * n) (fun a => x a * v a i) * sum_n (2 * n) (fun b => y b * v b i)))).
  { intros x y.
    transitivity (sum_n (2 * n) (fun a => sum_n n (fun i => sum_n (2 * n) (fun b =>
       x a * (nth i eps 0 * (u a i * u b i + v a i * v b i)) * y b)))).
    - apply sum_n_ext. intros a Ha. rewrite sum_n_swap. apply sum_n_ext. intros b Hb. rewrite (HV a b Ha Hb).
      rewrite <- sum_n_scale. rewrite Rmult_comm, <- sum_n_scale. apply sum_n_ext. intros; ring.
    - rewrite sum_n_swap. apply sum_n_ext. intros i Hi.
      transitivity (sum_n (2 * n) (fun a => x a * u a i * (nth i eps 0 * sum_n (2 * n) (fun b => y b * u b i)) +
                                            x a * v a i * (nth i eps 0 * sum_n (2 * n) (fun b => y b * v b i)))).
      + apply sum_n_ext. intros a Ha. rewrite <- !sum_n_scale, <- sum_n_plus. apply sum_n_ext. intros; ring.
      + rewrite sum_n_plus. 
        rewrite (sum_n_ext _ _ (fun a => (nth i eps 0 * sum_n (2 * n) (fun b => y b * u b i)) * (x a * u a i))) by (intros; ring).
        rewrite (sum_n_ext (2 * n) (fun a => x a * v a i * _) (fun a => (nth i eps 0 * sum_n (2 * n) (fun b => y b * v b i)) * (x a * v a i))) by (intros; ring).
        rewrite !sum_n_scale. ring. }
  assert (Pos : forall i, (i < n)%nat -> 0 < nth i eps 0) by (intros i Hi; apply Pe, nth_In; lia).
  split. { intros p q Hp Hq. rewrite !HV by auto. apply sum_n_ext. intros; ring. }
  split.
  - intros x (j & Hj & Xj). rewrite Quad.
    set (U := fun i => sum_n (2 * n) (fun a => x a * u a i)). set (W := fun i => sum_n (2 * n) (fun a => x a * v a i)).
    assert (NN : forall i, (i < n)%nat -> 0 <= nth i eps 0 * (U i * U i + W i * W i)).
    { intros i Hi. apply Rmult_le_pos; [apply Rlt_le; auto|nra]. }
    destruct (Rle_lt_or_eq_dec 0 (sum_n n (fun i => nth i eps 0 * (U i * U i + W i * W i)))) as [G|G]; auto.
    { apply sum_n_nonneg. auto. }
    exfalso. assert (Z : forall i, (i < n)%nat -> nth i eps 0 * (U i * U i + W i * W i) = 0).
    { apply sum_n_zero_terms; auto. }
    destruct EP as (_ & (F & F1 & _) & P).
    (* x^T E = 0 *)
    assert (XE : forall c, (c < 2 * n)%nat -> csum (2 * n) (fun a => cmul (c_of (x a)) (E a c)) = c_of 0).
    { assert (Gs : forall k f, csum k f = (sum_n k (fun i => fst (f i)), sum_n k (fun i => snd (f i)))).
      { induction k as [|k IH]; intros f; cbn [csum sum_n]; [reflexivity|]. rewrite IH. reflexivity. }
      assert (Even : forall i, (i < n)%nat -> csum (2 * n) (fun a => cmul (c_of (x a)) (E a (2 * i)%nat)) = c_of 0).
      { intros i Hi. specialize (Z i Hi). specialize (Pos i Hi).
        assert (S0 : U i * U i + W i * W i = 0) by (apply Rmult_integral in Z; destruct Z; lra).
        assert (U i = 0) by nra. assert (W i = 0) by nra.
        rewrite Gs. apply cx_eq; unfold c_of; cbn [fst snd].
        - transitivity (U i); [|exact H]. apply sum_n_ext. intros a Ha. unfold cmul. cbn [fst snd]. unfold u. ring.
        - transitivity (W i); [|exact H0]. apply sum_n_ext. intros a Ha. unfold cmul. cbn [fst snd]. unfold v. ring. }
      intros c Hc. assert (Hi : (c / 2 < n)%nat) by (apply Nat.div_lt_upper_bound; lia).
      destruct (parity c) as [Q|Q]; rewrite Q; auto.
      destruct (P _ Hi) as [_ Lc]. rewrite (csum_ext _ _ (fun a => cconj (cmul (c_of (x a)) (E a (2 * (c / 2))%nat)))).
      2:{ intros a Ha. rewrite (Lc a Ha), cconj_mul, cconj_of. reflexivity. }
      rewrite <- cconj_sum, Even, cconj_of; auto. }
    apply Xj. assert (K : cmm (2 * n) (fun _ a => c_of (x a)) (cmm (2 * n) E F) 0%nat j = c_of (x j)).
    { rewrite (cmm_proper (2 * n) _ _ (fun i j _ _ => eq_refl) _ _ F1 0%nat j) by lia.
      rewrite (cmm_one_r (2 * n) (fun _ a => c_of (x a)) 0%nat j) by lia. reflexivity. }
    rewrite <- (cmm_assoc (2 * n) _ _ _ 0%nat j) in K by lia. unfold cmm at 1 in K.
    rewrite csum_zero in K.
    { injection K as K. auto. }
    intros c Hc. unfold cmm. rewrite XE by auto. ring.
  - intros p q Hp Hq. rewrite (Quad (ent m p) (ent m q)), HV by auto. apply sum_n_ext. intros i Hi.
    destruct EP as (EM & _ & _).
    assert (Gs : forall k f, csum k f = (sum_n k (fun i => fst (f i)), sum_n k (fun i => snd (f i)))).
    { induction k as [|k IH]; intros f; cbn [csum sum_n]; [reflexivity|]. rewrite IH. reflexivity. }
    assert (A : forall r, (r < 2 * n)%nat ->
       sum_n (2 * n) (fun a => ent m r a * u a i) = u r i * fst (lam (2 * i)%nat) - v r i * snd (lam (2 * i)%nat) /\
       sum_n (2 * n) (fun a => ent m r a * v a i) = u r i * snd (lam (2 * i)%nat) + v r i * fst (lam (2 * i)%nat)).
    { intros r Hr. pose proof (EM r (2 * i)%nat Hr ltac:(lia)) as H. unfold cmm in H. rewrite Gs in H.
      pose proof (f_equal fst H) as H1. pose proof (f_equal snd H) as H2. unfold cmul, c_of in H1, H2. cbn [fst snd] in H1, H2.
      unfold u, v. split.
      - rewrite <- H1. apply sum_n_ext. intros; ring.
      - rewrite <- H2. apply sum_n_ext. intros; ring. }
    destruct (A p Hp) as [A1 A2]. destruct (A q Hq) as [A3 A4]. rewrite A1, A2, A3, A4.
    pose proof (St i Hi) as S1. set (c := fst (lam (2 * i)%nat)) in *. set (s := snd (lam (2 * i)%nat)) in *.
    transitivity (nth i eps 0 * ((c * c + s * s) * (u p i * u q i + v p i * v q i))); [ring|]. rewrite S1. ring.
Qed.
Print Assumptions C53_periodic.

(** numpy normalises eigenvectors to 1; the sizes of the ellipse then add up to the sum of
    the numbers given. *)
Definition normalised (n : nat) (E : CMat) : Prop :=
  forall i, (i < n)%nat -> sum_n (2 * n) (fun p => fst (E p (2 * i)%nat) * fst (E p (2 * i)%nat) +
                                                    snd (E p (2 * i)%nat) * snd (E p (2 * i)%nat)) = 1.

Theorem C53_trace : forall eig inv n m lam E d (eps : list R),
  lattice eig inv n m lam E -> normalised n E -> construct eig inv false m = inr d ->
  List.length eps = n ->
  exists V, get_v_m d eps = inr V /\ sum_n (2 * n) (fun p => V p p) = sum_n n (fun i => nth i eps 0).
Proof.
  intros eig inv n m lam E d eps Lt Nm C L.
  destruct (v_m_value eig inv n m lam E d eps Lt C L) as (V & EV & HV). exists V. split; auto.
  rewrite (sum_n_ext _ _ (fun p => sum_n n (fun i => nth i eps 0 *
      (fst (E p (2 * i)%nat) * fst (E p (2 * i)%nat) + snd (E p (2 * i)%nat) * snd (E p (2 * i)%nat))))) by (intros; apply HV; auto).
  rewrite sum_n_swap. apply sum_n_ext. intros i Hi. rewrite sum_n_scale, (Nm i Hi). ring.
Qed.
Print Assumptions C53_trace.

(** Full statement: the ellipse has the emittances asked for.  False: with one plane the
    emittance, the root of the determinant, is at most half the number given. *)
Theorem C53_emittance_refuted : forall eig inv m lam E d e,
  lattice eig inv 1 m lam E -> normalised 1 E -> construct eig inv false m = inr d -> 0 < e ->
  exists V, get_v_m d [e] = inr V /\ 0 < det_n 2 V /\ sqrt (det_n 2 V) <= e / 2.
Proof.
  intros eig inv m lam E d e Lt Nm C He.
  destruct (C53_trace eig inv 1 m lam E d [e] Lt Nm C eq_refl) as (V & EV & T).
  destruct (C53_periodic eig inv 1 m lam E d [e] Lt C eq_refl) as (V' & EV' & Sy & Df & _).
  { intros x [<-|[]]; auto. }
  rewrite EV in EV'. injection EV' as <-. exists V. split; auto.
  change (2 * 1)%nat with 2%nat in *. cbn [sum_n nth] in T.
  specialize (Sy 0%nat 1%nat ltac:(lia) ltac:(lia)).
  assert (D2 : det_n 2 V = V 0%nat 0%nat * V 1%nat 1%nat - V 0%nat 1%nat * V 0%nat 1%nat).
  { cbn [det_n sum_n pow]. unfold skip. cbn. rewrite <- Sy. ring. }
  assert (P : 0 < det_n 2 V).
  { apply det_positive.
    - intros i j Hi Hj. destruct i as [|[|i]]; [| |lia]; (destruct j as [|[|j]]; [| |lia]); auto.
    - exact Df. }
  split; auto. rewrite D2 in *. rewrite <- (sqrt_Rsqr (e / 2)) by lra. apply sqrt_le_1_alt. unfold Rsqr.
  set (a := V 0%nat 0%nat) in *. set (b := V 1%nat 1%nat) in *. set (c := V 0%nat 1%nat) in *. clearbody a b c. clear - T.
  assert (e = a + b) by lra. subst e. pose proof (Rle_0_sqr (a - b)) as S1. pose proof (Rle_0_sqr c) as S2. unfold Rsqr in *. lra.
Qed.
Print Assumptions C53_emittance_refuted.

(** Transfer matrices without coupling, of two planes or more, are not treated: if planes 0
    and 1 are focused differently the numbers are never finite, since eigenvectors 0 and 1
    belong to one plane. *)
Theorem C53_uncoupled_refuted : forall eig inv n m lam E,
  (2 <= n)%nat -> shape (2 * n) (2 * n) m -> det_n (2 * n) (ent m) = 1 ->
  eig m = Some (lam, E) -> eigen_pairs n (ent m) lam E -> stable n lam ->
  uncoupled n (ent m) ->
  ent m 0 0 * ent m 1 1 - ent m 0 1 * ent m 1 0 = 1 ->
  ent m 2 2 * ent m 3 3 - ent m 2 3 * ent m 3 2 = 1 ->
  ent m 0 0 + ent m 1 1 <> ent m 2 2 + ent m 3 3 ->
  construct eig inv false m = inl DNotFinite.
Proof.
  intros eig inv n m lam E Hn Sh Dt Eg EP St Un D0 D1 Tr.
  rewrite (construct_ok eig inv n m lam E ltac:(lia) Sh Dt Eg). unfold get_decoupling.
  assert (B : forall k, (2 <= k)%nat -> all_twiss E k = true -> E 0%nat 0%nat <> c_of 0 /\ E 2%nat 1%nat <> c_of 0).
  { induction k as [|k IH]; intros Hk H; [lia|]. cbn [all_twiss] in H. apply andb_true_iff in H. destruct H as [H1 H2].
    destruct (Nat.eq_dec k 1) as [->|].
    - cbn [all_twiss] in H1. apply andb_true_iff in H1. destruct H1 as [_ H1].
      unfold block_twiss, twiss in H1, H2. change (2 * 0)%nat with 0%nat in H1. change (2 * 1)%nat with 2%nat in H2.
      split; intros Z; apply cx_zero_spec in Z; [rewrite Z in H1|rewrite Z in H2]; discriminate.
    - apply IH; auto. lia. }
  destruct (all_twiss E n) eqn:A; auto. exfalso. destruct (B n Hn A) as [E0 E2].
  destruct EP as (EM & _ & P). destruct (P 0%nat ltac:(lia)) as [_ P0]. change (2 * 0 + 1)%nat with 1%nat in P0. change (2 * 0)%nat with 0%nat in P0.
  assert (E2' : E 2%nat 0%nat <> c_of 0).
  { intros Z. apply E2. rewrite P0 by lia. rewrite Z. apply cconj_of. }
  assert (Char : forall i, (i < n)%nat -> E (2 * i)%nat 0%nat <> c_of 0 ->
     ent m (2 * i) (2 * i) * ent m (2 * i + 1) (2 * i + 1) - ent m (2 * i) (2 * i + 1) * ent m (2 * i + 1) (2 * i) = 1 ->
     csub (cmul (lam 0%nat) (lam 0%nat)) (cmul (c_of (ent m (2 * i) (2 * i) + ent m (2 * i + 1) (2 * i + 1))) (lam 0%nat)) = c_of (-1)).
  { intros i Hi Ei Di.
    assert (Row : forall p, (p < 2 * n)%nat -> (p / 2 = i)%nat ->
       cadd (cmul (c_of (ent m p (2 * i))) (E (2 * i)%nat 0%nat)) (cmul (c_of (ent m p (2 * i + 1))) (E (2 * i + 1)%nat 0%nat)) =
       cmul (E p 0%nat) (lam 0%nat)).
    { intros p Hp Pi. rewrite <- (EM p 0%nat Hp ltac:(lia)). unfold cmm. rewrite (csum_pair n _ i Hi); auto.
      intros k Hk Nk. rewrite (Un p k Hp Hk) by congruence. ring. }
    pose proof (Row (2 * i)%nat ltac:(lia) (half_even i)) as R0. pose proof (Row (2 * i + 1)%nat ltac:(lia) (half_odd i)) as R1.
    set (x := E (2 * i)%nat 0%nat) in *. set (y := E (2 * i + 1)%nat 0%nat) in *. set (l := lam 0%nat) in *.
    set (a := ent m (2 * i) (2 * i)) in *. set (b := ent m (2 * i) (2 * i + 1)) in *.
    set (c := ent m (2 * i + 1) (2 * i)) in *. set (f := ent m (2 * i + 1) (2 * i + 1)) in *.
    clearbody x y l a b c f.
    (* (l - a) x = b y, (l - f) y = c x *)
    assert (K : cmul (csub (cmul (csub l (c_of a)) (csub l (c_of f))) (cmul (c_of b) (c_of c))) x = c_of 0).
    { transitivity (csub (cmul (csub l (c_of f)) (csub (cmul x l) (cmul (c_of a) x))) (cmul (cmul (c_of b) (c_of c)) x)); [ring|].
      rewrite <- R0.
      transitivity (cmul (c_of b) (csub (csub (cmul y l) (cmul (c_of f) y)) (cmul (c_of c) x))); [ring|]. rewrite <- R1. ring. }
    assert (K2 : csub (cmul (csub l (c_of a)) (csub l (c_of f))) (cmul (c_of b) (c_of c)) = c_of 0).
    { transitivity (cmul (cinv x) (cmul (csub (cmul (csub l (c_of a)) (csub l (c_of f))) (cmul (c_of b) (c_of c))) x)); [field; auto|].
      rewrite K. ring. }
    pose proof (f_equal fst K2) as K3. pose proof (f_equal snd K2) as K4.
    unfold csub, cadd, copp, cmul, c_of in *. cbn [fst snd] in *. apply cx_eq; cbn [fst snd]; nra. }
  pose proof (Char 0%nat ltac:(lia) E0 D0) as C0. pose proof (Char 1%nat ltac:(lia) E2' D1) as C1.
  change (2 * 0 + 1)%nat with 1%nat in *. change (2 * 0)%nat with 0%nat in *. change (2 * 1 + 1)%nat with 3%nat in *. change (2 * 1)%nat with 2%nat in *.
  pose proof (St 0%nat ltac:(lia)) as S0. change (2 * 0)%nat with 0%nat in S0.
  set (l := lam 0%nat) in *. set (t0 := ent m 0 0 + ent m 1 1) in *. set (t1 := ent m 2 2 + ent m 3 3) in *.
  rewrite <- C1 in C0. pose proof (f_equal fst C0) as K1. pose proof (f_equal snd C0) as K2.
  unfold csub, cadd, copp, cmul, c_of in K1, K2. cbn [fst snd] in K1, K2. clearbody l t0 t1. clear - K1 K2 S0 Tr.
  assert (Q1 : (t0 - t1) * fst l = 0) by nra. assert (Q2 : (t0 - t1) * snd l = 0) by nra.
  apply Rmult_integral in Q1. apply Rmult_integral in Q2. destruct Q1 as [Q1|Q1]; [lra|]. destruct Q2 as [Q2|Q2]; [lra|].
  rewrite Q1, Q2 in S0. lra.
Qed.
Print Assumptions C53_uncoupled_refuted.

(** Matrices that are not square, of odd size, or with a determinant off by more than the
    tolerance are rejected. *)
Theorem C53_rejects : forall eig inv m,
  ~ shape (List.length m) (List.length m) m \/ Nat.Odd (List.length m) \/ 1 / 1000000 < Rabs (det_n (List.length m) (ent m) - 1) ->
  construct eig inv false m = inl DValueError.
Proof.
  intros eig inv m H. unfold construct. destruct (is_square m) eqn:Q; [|reflexivity]. cbn [negb andb].
  destruct (Nat.eqb_spec (List.length m / 2 * 2) (List.length m)) as [Ev|]; [|reflexivity]. cbn [negb].
  destruct (Rlt_dec _ _) as [B|B]; [reflexivity|]. exfalso. destruct H as [H|[[k H]|H]].
  - apply H. split; auto. intros r Hr. unfold is_square in Q. rewrite forallb_forall in Q. apply Nat.eqb_eq. auto.
  - rewrite H, half_odd in Ev. lia.
  - unfold det, det_tolerance in B. contradiction.
Qed.
Print Assumptions C53_rejects.

Theorem C53_length : forall d eps,
  List.length eps <> d_dim d -> get_v_m d eps = inl DValueError.
Proof. intros d eps H. unfold get_v_m. apply Nat.eqb_neq in H. rewrite H. reflexivity. Qed.
Print Assumptions C53_length.

(** Under Python 3 no object can be made. *)
Theorem C53_python3 : forall eig inv m, exists e, construct eig inv true m = inl e.
Proof.
  intros eig inv m. unfold construct. destruct (negb (is_square m)); eauto. cbn [negb andb].
  destruct (Rlt_dec _ _); eauto. destruct (eig m) as [[lam E]|]; eauto.
Qed.
Print Assumptions C53_python3.

(** ---- cases ---- *)
(** An inversion as assumed exists for every size. *)
Lemma inverses_exist n : exists inv, finds_inverses n inv.
Proof.
  exists (fun A => match excluded_middle_informative (exists B, c_inverse n A B) with
                   | left e => Some (proj1_sig (constructive_indefinite_description _ e))
                   | right _ => None end).
  intros A B H. destruct (excluded_middle_informative _) as [e|e]; [|destruct e; eauto].
  eexists. split; [reflexivity|]. exact (proj2_sig (constructive_indefinite_description _ e)).
Qed.

(** One plane, turning by plus or minus a quarter with beta = 2. *)
Definition quarter (s : R) : list (list R) := [[0; 2 * s]; [- s / 2; 0]].
Definition quarter_lam (j : nat) : Cx := match j with O => (0, 1) | _ => (0, -1) end.
(** Eigenvectors of norm 1. *)
Definition quarter_vec (s : R) : CMat := fun p q =>
  match p, q with
  | O, _ => (2 / sqrt 5, 0)
  | _, O => (0, s / sqrt 5)
  | _, _ => (0, - s / sqrt 5)
  end.

Lemma quarter_lattice s inv : s = 1 \/ s = -1 -> finds_inverses 2 inv ->
  lattice (fun _ => Some (quarter_lam, quarter_vec s)) inv 1 (quarter s) quarter_lam (quarter_vec s) /\
  normalised 1 (quarter_vec s).
Proof.
  intros Hs Inv. pose proof (sqrt_lt_R0 5 ltac:(lra)) as P5. pose proof (sqrt_sqrt 5 ltac:(lra)) as Q5.
  assert (S2 : s * s = 1) by (destruct Hs; subst; ring). assert (Sz : s <> 0) by (intros ->; lra).
  assert (Z5 : sqrt 5 <> 0) by lra.
  split; [|intros i Hi; assert (i = 0%nat) by lia; subst; cbn [sum_n]; unfold quarter_vec; cbn; set (z := sqrt 5) in *; clearbody z;
           transitivity ((4 + s * s) / (z * z)); [field; auto|rewrite S2, Q5; field]].
  split; [lia|]. split. { split; [reflexivity|]. intros r [<-|[<-|[]]]; reflexivity. }
  split. { unfold quarter. cbn. field_simplify. rewrite <- S2. unfold Rdiv. ring. }
  split; [reflexivity|]. split; [split; [|split]|].
  - intros i j Hi Hj. unfold cmm. change (2 * 1)%nat with 2%nat. cbn [csum].
    destruct i as [|[|i]]; [| |lia]; (destruct j as [|[|j]]; [| |lia]); unfold quarter, quarter_vec, quarter_lam; cbn;
      apply cx_eq; unfold cadd, cmul, c_of; cbn [fst snd]; try (field; auto; fail).
    all: set (z := sqrt 5) in *; clearbody z.
    all: try (transitivity (- (2 / z)); [transitivity (- (2 * (s * s) / z)); [field; auto|rewrite S2; field; auto]|field; auto]).
    all: try (transitivity (2 * (s * s) / z); [field; auto|rewrite S2; field; auto]).
    all: field; auto.
  - exists (fun p q => match p, q with
             | O, O => (sqrt 5 / 4, 0) | O, _ => (0, - s * sqrt 5 / 2)
             | _, O => (sqrt 5 / 4, 0) | _, _ => (0, s * sqrt 5 / 2) end).
    split; intros i j Hi Hj; unfold cmm; change (2 * 1)%nat with 2%nat; cbn [csum];
      (destruct i as [|[|i]]; [| |lia]); (destruct j as [|[|j]]; [| |lia]); unfold quarter_vec, c_one; cbn;
      apply cx_eq; unfold cadd, cmul, c_of; cbn [fst snd]; set (z := sqrt 5) in *; clearbody z; try (field; auto; fail).
    all: try (transitivity (s * s); [field; auto|rewrite S2; ring]).
    all: try (transitivity (1 / 2 + s * s / 2); [field; auto|rewrite S2; field]).
    all: try (transitivity (1 / 2 - s * s / 2); [field; auto|rewrite S2; field]).
  - intros i Hi. assert (i = 0%nat) by lia. subst. split; [apply cx_eq; unfold cconj; cbn; ring|].
    intros p Hp. destruct p as [|[|p]]; [| |lia]; apply cx_eq; unfold cconj, quarter_vec; cbn; field; auto.
  - split; [|split; auto].
    + intros i Hi. assert (i = 0%nat) by lia. subst. cbn. ring.
    + intros i Hi. assert (i = 0%nat) by lia. subst. change (2 * 0)%nat with 0%nat. change (0 + 1)%nat with 1%nat. unfold quarter_vec. split.
      * intros H. injection H as H. apply (f_equal (fun x => x * sqrt 5)) in H. unfold Rdiv in H. rewrite Rmult_assoc, Rinv_l in H by auto. lra.
      * unfold cdiv, cmul, cinv. cbn [fst snd]. intros H. apply Sz.
        transitivity (2 * (0 * (- 0 / (2 / sqrt 5 * (2 / sqrt 5) + 0 * 0)) +
                      s / sqrt 5 * (2 / sqrt 5 / (2 / sqrt 5 * (2 / sqrt 5) + 0 * 0)))); [field; auto|].
        transitivity (2 * 0); [f_equal; exact H|ring].
Qed.

Lemma atan2_up y : 0 < y -> atan2 y 0 = PI / 2.
Proof. intros H. unfold atan2. destruct (Rlt_dec 0 0); [lra|]. destruct (Rlt_dec 0 y); [auto|lra]. Qed.

(** Full statement: with one plane m is the rotation by the phase returned.  False: numpy lists
    the eigenvalue above the axis first, so that the phase is folded to (0, pi), and a line that
    turns by minus a quarter is reported to turn by a quarter. *)
Theorem C53_phase_refuted : forall inv, finds_inverses 2 inv -> exists eig m lam E d,
  lattice eig inv 1 m lam E /\ normalised 1 E /\ 0 < snd (lam 0%nat) /\
  construct eig inv false m = inr d /\
  get_phase_advance d 0 = PI / 2 /\
  ent m 0 1 = rotation_block (- (PI / 2)) (get_beta d 0) (get_alpha d 0) (get_gamma d 0) 0 1 /\
  ent m 0 1 <> rotation_block (get_phase_advance d 0) (get_beta d 0) (get_alpha d 0) (get_gamma d 0) 0 1.
Proof.
  intros inv Inv. destruct (quarter_lattice (-1) inv (or_intror eq_refl) Inv) as [Lt Nm].
  destruct (C53_one_plane _ _ _ _ _ Lt) as (d & C & mu & Hmu & H).
  destruct (C53_optics _ _ _ _ _ _ Lt) as (d' & C' & _ & _ & _ & _ & O). rewrite C in C'. injection C' as <-.
  destruct (O 0%nat ltac:(lia)) as (Bp & _). clear O.
  do 5 eexists. split; [exact Lt|]. split; [exact Nm|]. split; [cbn; lra|]. split; [exact C|].
  assert (Ph : get_phase_advance d 0 = PI / 2).
  { destruct Lt as (Hn & Sh & Dt & Eg & EP & St & Fin & _).
    rewrite (construct_ok _ _ _ _ _ _ Hn Sh Dt Eg) in C.
    destruct (decoupling_spec 1 _ _ _ EP St Fin inv Inv) as (d2 & Ed & _ & _ & P & _). rewrite C in Ed. injection Ed as <-.
    unfold get_phase_advance. rewrite P. unfold angle. cbn. apply atan2_up. lra. }
  specialize (H 0%nat 1%nat ltac:(lia) ltac:(lia)). cbn in H. split; auto. rewrite Ph in *.
  unfold ent at 1 2. cbn. rewrite sin_neg, sin_PI2. destruct Hmu; subst mu; rewrite ?sin_neg, ?sin_PI2 in H; split; lra.
Qed.
Print Assumptions C53_phase_refuted.

(** Full statement (docstring of get_v_m): M^T V M = V.  False; it is M V M^T = V. *)
Theorem C53_transpose_refuted : forall inv, finds_inverses 2 inv -> exists eig m lam E d V,
  lattice eig inv 1 m lam E /\ normalised 1 E /\
  construct eig inv false m = inr d /\ get_v_m d [5] = inr V /\
  (forall p q, (p < 2)%nat -> (q < 2)%nat ->
     V p q = match p, q with O, O => 4 | S _, S _ => 1 | _, _ => 0 end) /\
  sum_n 2 (fun a => sum_n 2 (fun b => ent m a 0 * V a b * ent m b 0)) <> V 0%nat 0%nat.
Proof.
  intros inv Inv. destruct (quarter_lattice 1 inv (or_introl eq_refl) Inv) as [Lt Nm].
  destruct (C53_optics _ _ _ _ _ _ Lt) as (d & C & _).
  destruct (v_m_value _ _ _ _ _ _ d [5] Lt C eq_refl) as (V & EV & HV).
  exists (fun _ => Some (quarter_lam, quarter_vec 1)), (quarter 1), quarter_lam, (quarter_vec 1), d, V.
  split; auto. split; auto. split; auto. split; auto.
  pose proof (sqrt_lt_R0 5 ltac:(lra)) as P5. pose proof (sqrt_sqrt 5 ltac:(lra)) as Q5.
  assert (HV' : forall p q, (p < 2)%nat -> (q < 2)%nat ->
     V p q = match p, q with O, O => 4 | S _, S _ => 1 | _, _ => 0 end).
  { intros p q Hp Hq. rewrite (HV p q Hp Hq). cbn [sum_n nth]. change (2 * 0)%nat with 0%nat.
    destruct p as [|[|p]]; [| |lia]; (destruct q as [|[|q]]; [| |lia]); unfold quarter_vec; cbn [fst snd]; set (z := sqrt 5) in *; clearbody z.
    - transitivity (20 / (z * z)); [field; lra|rewrite Q5; field].
    - ring.
    - ring.
    - transitivity (5 / (z * z)); [field; lra|rewrite Q5; field]. }
  split; auto. cbn [sum_n]. rewrite !HV' by lia. unfold ent, quarter. cbn. lra.
Qed.
Print Assumptions C53_transpose_refuted.

(** Two coupled planes: the hypotheses of the theorems can be met beyond one plane. *)
Definition swap_planes : list (list R) := [[0; 0; 0; 1]; [0; 0; -1; 0]; [0; 1; 0; 0]; [-1; 0; 0; 0]].
Definition swap_lam (j : nat) : Cx := match j with 0%nat | 2%nat => (0, 1) | _ => (0, -1) end.
Definition swap_vec : CMat := fun p q =>
  match q, p with
  | 0%nat, 0%nat | 0%nat, 2%nat => (1 / 2, 0) | 0%nat, _ => (0, 1 / 2)
  | 1%nat, 0%nat | 1%nat, 2%nat => (1 / 2, 0) | 1%nat, _ => (0, - (1 / 2))
  | 2%nat, 0%nat => (1 / 2, 0) | 2%nat, 1%nat => (0, - (1 / 2)) | 2%nat, 2%nat => (- (1 / 2), 0) | 2%nat, _ => (0, 1 / 2)
  | _, 0%nat => (1 / 2, 0) | _, 1%nat => (0, 1 / 2) | _, 2%nat => (- (1 / 2), 0) | _, _ => (0, - (1 / 2))
  end.

Example C53_example : exists inv d V,
  lattice (fun _ => Some (swap_lam, swap_vec)) inv 2 swap_planes swap_lam swap_vec /\ normalised 2 swap_vec /\
  construct (fun _ => Some (swap_lam, swap_vec)) inv false swap_planes = inr d /\
  get_v_m d [1; 3] = inr V /\ definite 4 V /\ V 0%nat 0%nat = 1 /\ V 0%nat 2%nat = - (1 / 2).
Proof.
  destruct (inverses_exist 4) as (inv & Inv).
  assert (Lt : lattice (fun _ => Some (swap_lam, swap_vec)) inv 2 swap_planes swap_lam swap_vec).
  { split; [lia|]. split. { split; [reflexivity|]. intros r [<-|[<-|[<-|[<-|[]]]]]; reflexivity. }
    split. { cbn. ring. }
    split; [reflexivity|]. split; [split; [|split]|split; [|split]]; auto.
    - intros i j Hi Hj. unfold cmm. change (2 * 2)%nat with 4%nat in *. cbn [csum].
      destruct i as [|[|[|[|i]]]]; [| | | |lia]; (destruct j as [|[|[|[|j]]]]; [| | | |lia]);
        cbv [ent swap_planes nth swap_vec swap_lam]; apply cx_eq; unfold cadd, cmul, c_of; cbn [fst snd]; ring.
    - exists (fun p q => cconj (swap_vec q p)).
      split; intros i j Hi Hj; unfold cmm; change (2 * 2)%nat with 4%nat in *; cbn [csum];
      (destruct i as [|[|[|[|i]]]]; [| | | |lia]); (destruct j as [|[|[|[|j]]]]; [| | | |lia]);
        cbv [swap_vec c_one Nat.eqb cconj]; apply cx_eq; unfold cadd, cmul, c_of; cbn [fst snd]; field.
    - intros i Hi. destruct i as [|[|i]]; [| |lia]; (split; [apply cx_eq; unfold cconj; cbn; ring|]); intros p Hp;
        (destruct p as [|[|[|[|p]]]]; [| | | |lia]); apply cx_eq; unfold cconj; cbn; ring.
    - intros i Hi. destruct i as [|[|i]]; [| |lia]; cbn; ring.
    - intros i Hi. destruct i as [|[|i]]; [| |lia]; (split; [cbn; intros H; injection H; lra|]); unfold cdiv, cmul, cinv; cbn; lra. }
  assert (Nm : normalised 2 swap_vec).
  { intros i Hi. destruct i as [|[|i]]; [| |lia]; cbn; field. }
  destruct (C53_optics _ _ _ _ _ _ Lt) as (d & C & _).
  destruct (C53_periodic _ _ _ _ _ _ d [1; 3] Lt C eq_refl) as (V & EV & _ & Df & _).
  { intros e [<-|[<-|[]]]; lra. }
  destruct (v_m_value _ _ _ _ _ _ d [1; 3] Lt C eq_refl) as (V' & EV' & HV). rewrite EV in EV'. injection EV' as <-.
  exists inv, d, V. split; auto. split; auto. split; auto. split; auto. split; auto.
  rewrite !HV by lia. split; cbn; field.
Qed.

(** Two planes without coupling that are focused differently. *)
Example C53_uncoupled_example : exists eig inv, forall V, (V = 0 :> R) ->
  let m := [[0; 1; V; V]; [-1; 0; V; V]; [V; V; 3 / 5; 4 / 5]; [V; V; -4 / 5; 3 / 5]] in
  construct eig inv false m = inl DNotFinite.
Proof.
  set (lam := fun j : nat => match j with 0%nat => (0, 1) | 1%nat => (0, -1) | 2%nat => (3 / 5, 4 / 5) | _ => (3 / 5, - (4 / 5)) end : Cx).
  set (E := fun p q : nat => match q, p with
    | 0%nat, 0%nat => (1, 0) | 0%nat, 1%nat => (0, 1) | 1%nat, 0%nat => (1, 0) | 1%nat, 1%nat => (0, -1)
    | 2%nat, 2%nat => (1, 0) | 2%nat, 3%nat => (0, 1) | 3%nat, 2%nat => (1, 0) | 3%nat, 3%nat => (0, -1)
    | _, _ => (0, 0) end : Cx).
  exists (fun _ => Some (lam, E)), (fun _ => None). intros V -> m.
  apply (C53_uncoupled_refuted _ _ 2 m lam E); auto; unfold m.
  - split; [reflexivity|]. intros r [<-|[<-|[<-|[<-|[]]]]]; reflexivity.
  - cbn. field.
  - split; [|split].
    + intros i j Hi Hj. unfold cmm. change (2 * 2)%nat with 4%nat in *. cbn [csum].
      destruct i as [|[|[|[|i]]]]; [| | | |lia]; (destruct j as [|[|[|[|j]]]]; [| | | |lia]);
        cbv [ent nth E lam]; apply cx_eq; unfold cadd, cmul, c_of; cbn [fst snd]; field.
    + exists (fun p q => cmul (c_of (1 / 2)) (cconj (E q p))).
      split; intros i j Hi Hj; unfold cmm; change (2 * 2)%nat with 4%nat in *; cbn [csum];
      (destruct i as [|[|[|[|i]]]]; [| | | |lia]); (destruct j as [|[|[|[|j]]]]; [| | | |lia]);
        cbv [E c_one Nat.eqb cconj]; apply cx_eq; unfold cadd, cmul, c_of; cbn [fst snd]; field.
    + intros i Hi. destruct i as [|[|i]]; [| |lia]; (split; [apply cx_eq; unfold cconj; cbn; ring|]); intros p Hp;
        (destruct p as [|[|[|[|p]]]]; [| | | |lia]); apply cx_eq; unfold cconj; cbn; ring.
  - intros i Hi. destruct i as [|[|i]]; [| |lia]; cbn; field.
  - intros p q Hp Hq N. destruct p as [|[|[|[|p]]]]; [| | | |lia]; (destruct q as [|[|[|[|q]]]]; [| | | |lia]);
      cbn in N; try congruence; reflexivity.
  - cbn. ring.
  - cbn. field.
  - cbn. lra.
Qed.
