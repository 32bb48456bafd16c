(** Rounding of a quotient and of the product back: the second time round nothing changes any more (for C93). *)
From Coq Require Import Reals ZArith Znumtheory Zpow_facts Lia Lra Psatz.
From Flocq Require Import Core.
Open Scope R_scope.

Lemma odd_divides q a b i j : Z.odd q = true -> (0 <= i)%Z -> (a * 2 ^ i = b * q * 2 ^ j)%Z -> (q | a)%Z.
Proof.
  intros O I E. apply Gauss with (2 ^ i)%Z.
  - exists (b * 2 ^ j)%Z. rewrite Z.mul_comm. rewrite E. ring.
  - apply rel_prime_Zpower_r; [exact I|]. apply rel_prime_sym. apply prime_rel_prime; [apply prime_2|].
    intros [k K]. rewrite K, Z.mul_comm, Z.odd_mul in O. discriminate O.
Qed.

Section Cycle.
  Variable p : Z.
  Context {Hp : Prec_gt_0 p}.
  Notation fexp := (FLX_exp p).
  Notation F := (generic_format radix2 fexp).
  Notation rn := (round radix2 fexp ZnearestE).
  Notation pow2 := (bpow radix2).

  (** The quotient of two floats is not an odd number of more than p bits. *)
  Lemma no_midpoint x c q k : F x -> F c -> x <> 0 -> Z.odd q = true -> (2 ^ p < q)%Z -> x = c * (IZR q * pow2 k) -> False.
  Proof.
    intros Fx Fc N O Q E.
    apply FLX_format_generic in Fx; [|exact Hp]. apply FLX_format_generic in Fc; [|exact Hp].
    destruct Fx as [[mx ex] Ex Bx]. destruct Fc as [[mc ec] Ec _]. cbn [Fnum] in Bx.
    rewrite Ex, Ec in E. unfold F2R in E. cbn [Fnum Fexp] in E.
    set (lo := Z.min ex (ec + k)).
    assert (E2 : (mx * 2 ^ (ex - lo) = mc * q * 2 ^ (ec + k - lo))%Z).
    { apply eq_IZR. rewrite !mult_IZR. rewrite !(IZR_Zpower radix2) by lia.
      apply Rmult_eq_reg_r with (pow2 lo); [|apply Rgt_not_eq, bpow_gt_0].
      rewrite !Rmult_assoc, <- !bpow_plus. replace (ex - lo + lo)%Z with ex by ring. replace (ec + k - lo + lo)%Z with (ec + k)%Z by ring.
      rewrite E, bpow_plus. ring. }
    apply odd_divides in E2; [|exact O|lia]. destruct E2 as [t T].
    assert (mx <> 0%Z). { intros ->. apply N. rewrite Ex. unfold F2R. cbn. ring. }
    assert (t <> 0%Z) by (intros ->; lia). change (radix_val radix2) with 2%Z in Bx.
    rewrite T, Z.abs_mul in Bx. nia.
  Qed.

  Lemma format_scaled x e : F x -> F (x * pow2 e).
  Proof.
    intros Fx. apply FLX_format_generic in Fx; [|exact Hp]. destruct Fx as [[m ex] E B].
    apply generic_format_FLX. exists (Float radix2 m (ex + e)); [|exact B].
    rewrite E. unfold F2R. cbn. rewrite bpow_plus. ring.
  Qed.

  (** A positive float that is not a power of two: its neighbours are at the same distance, and the midpoints are odd. *)
  Lemma neighbours y : F y -> 0 < y -> (exists e, y = pow2 e) \/
    (pred radix2 fexp y = y - ulp radix2 fexp y /\
     exists m e, (2 ^ (p - 1) < m)%Z /\ y = IZR m * pow2 e /\ ulp radix2 fexp y = pow2 e).
  Proof.
    intros Fy P. rewrite pred_eq_pos by lra. unfold pred_pos.
    destruct (Req_bool_spec y (pow2 (mag radix2 y - 1))) as [E|N]; [left; eexists; exact E|right]. split; [reflexivity|].
    rewrite ulp_neq_0 by lra. exists (Ztrunc (scaled_mantissa radix2 fexp y)), (cexp radix2 fexp y).
    assert (E : y = IZR (Ztrunc (scaled_mantissa radix2 fexp y)) * pow2 (cexp radix2 fexp y)) by exact Fy.
    split; [|split; [exact E|reflexivity]].
    set (m := Ztrunc (scaled_mantissa radix2 fexp y)) in *.
    assert (Lo : pow2 (mag radix2 y - 1) < y).
    { destruct (mag radix2 y) as [e He]. cbn [mag_val] in *. specialize (He ltac:(lra)). rewrite Rabs_right in He by lra. lra. }
    unfold cexp, FLX_exp in E. assert (Pp := prec_gt_0 p).
    apply lt_IZR. rewrite (IZR_Zpower radix2) by lia.
    apply Rmult_lt_reg_r with (pow2 (mag radix2 y - p)); [apply bpow_gt_0|]. rewrite <- E, <- bpow_plus.
    replace (p - 1 + (mag radix2 y - p))%Z with (mag radix2 y - 1)%Z by ring. exact Lo.
  Qed.

  Lemma ulp_pos y : 0 < y -> 0 < ulp radix2 fexp y.
  Proof. intros P. rewrite ulp_neq_0 by lra. apply bpow_gt_0. Qed.

  (** Half a spacing of the neighbour below is at most half that above. *)
  Lemma below_le_above y : 0 < y -> y - pred radix2 fexp y <= ulp radix2 fexp y.
  Proof.
    intros P. rewrite pred_eq_pos by lra. unfold pred_pos.
    destruct (Req_bool_spec y (pow2 (mag radix2 y - 1))) as [E|N]; [|lra].
    rewrite ulp_neq_0 by lra. unfold cexp, FLX_exp.
    assert (pow2 (mag radix2 y - 1 - p) <= pow2 (mag radix2 y - p)) by (apply bpow_le; lia). lra.
  Qed.

  (** From what rounds to y. *)
  Lemma rounds_above z y : F y -> 0 < y -> rn z = y -> (y + pred radix2 fexp y) / 2 <= z.
  Proof.
    intros Fy P E. destruct (Rle_or_lt ((y + pred radix2 fexp y) / 2) z) as [L|L]; [exact L|exfalso].
    assert (Fp : F (pred radix2 fexp y)) by (apply generic_format_pred; auto with typeclass_instances).
    pose proof (round_N_le_midp radix2 fexp (fun t => negb (Z.even t)) (pred radix2 fexp y) z Fp) as Q.
    rewrite succ_pred in Q by (auto with typeclass_instances). rewrite E in Q.
    pose proof (pred_lt_id radix2 fexp y). assert (y <> 0) by lra. specialize (Q ltac:(lra)). specialize (H H0). lra.
  Qed.
  Lemma rounds_below z y : F y -> 0 < y -> rn z = y -> z <= (y + succ radix2 fexp y) / 2.
  Proof.
    intros Fy P E. destruct (Rle_or_lt z ((y + succ radix2 fexp y) / 2)) as [L|L]; [exact L|exfalso].
    assert (Fp : F (succ radix2 fexp y)) by (apply generic_format_succ; auto with typeclass_instances).
    pose proof (round_N_ge_midp radix2 fexp (fun t => negb (Z.even t)) (succ radix2 fexp y) z Fp) as Q.
    rewrite pred_succ in Q by (auto with typeclass_instances). rewrite E in Q.
    pose proof (succ_gt_id radix2 fexp y). assert (y <> 0) by lra. specialize (Q ltac:(lra)). specialize (H H0). lra.
  Qed.

  Lemma half e : pow2 (e - 1) = pow2 e / 2.
  Proof. replace (e - 1)%Z with (e + -1)%Z by ring. rewrite bpow_plus. simpl (pow2 (-1)). lra. Qed.

  Theorem cycle x c : F x -> F c -> 0 < x -> 0 < c ->
    let y := rn (x / c) in let x1 := rn (y * c) in x1 = x \/ rn (x1 / c) = y.
  Proof.
    intros Fx Fc Px Pc y x1. assert (Pp := prec_gt_0 p).
    assert (Fy : F y) by (apply generic_format_round; auto with typeclass_instances).
    assert (Q : 0 < x / c) by (now apply Rdiv_lt_0_compat).
    assert (Py : 0 < y).
    { unfold y. assert (N : 0 <= rn (x / c)).
      { rewrite <- (round_0 radix2 fexp ZnearestE). apply round_le; auto with typeclass_instances; lra. }
      destruct N as [N|N]; [exact N|exfalso]. symmetry in N. apply eq_0_round_0_FLX in N; auto with typeclass_instances. lra. }
    assert (Ey : rn y = y) by (apply round_generic; auto with typeclass_instances).
    (* the product is nearest *)
    assert (Nr : Rabs (x1 - y * c) <= Rabs (x - y * c)).
    { destruct (round_N_pt radix2 fexp (fun t => negb (Z.even t)) (y * c)) as [_ H]. exact (H x Fx). }
    set (w := x1 / c). set (z := x / c) in *.
    assert (Ez : x = z * c) by (unfold z; field; lra). assert (Ew : x1 = w * c) by (unfold w; field; lra).
    assert (Nw : Rabs (w - y) <= Rabs (z - y)).
    { rewrite Ez, Ew in Nr. rewrite <- !Rmult_minus_distr_r, !Rabs_mult, (Rabs_right c) in Nr by lra.
      apply Rmult_le_reg_r with c; assumption. }
    pose proof (ulp_pos y Py) as Pu.
    destruct (neighbours y Fy Py) as [[e Pe]|[Pd (m & e & Hm & Em & Eu)]].
    - (* a power of two: the product is exact *)
      right. assert (X : x1 = y * c).
      { unfold x1. apply round_generic; auto with typeclass_instances. rewrite Pe, Rmult_comm. now apply format_scaled. }
      replace w with y; [exact Ey|]. unfold w. rewrite X. field. lra.
    - assert (Sy : succ radix2 fexp y = y + ulp radix2 fexp y) by (apply succ_eq_pos; lra).
      pose proof (rounds_above z y Fy Py eq_refl) as La. pose proof (rounds_below z y Fy Py eq_refl) as Lb.
      rewrite Pd in La. rewrite Sy in Lb. set (h := ulp radix2 fexp y / 2) in *.
      assert (Hz : Rabs (z - y) <= h) by (apply Rabs_le; unfold h; lra).
      assert (P2 : (2 ^ p = 2 * 2 ^ (p - 1))%Z). { rewrite <- Z.pow_succ_r by lia. f_equal. lia. }
      assert (Tie : Rabs (z - y) <> h).
      { intros T. assert (Uh : h = pow2 (e - 1)).
        { unfold h. rewrite Eu. rewrite half. lra. }
        assert (Ye : y = IZR (2 * m) * pow2 (e - 1)).
        { rewrite Em, mult_IZR. rewrite half. lra. }
        unfold Rabs in T. destruct (Rcase_abs (z - y)).
        - apply (no_midpoint x c (2 * m - 1) (e - 1) Fx Fc); [lra| |lia|].
          + rewrite Z.odd_sub, Z.odd_mul. reflexivity.
          + rewrite Ez, (Rmult_comm c). f_equal. rewrite minus_IZR, Rmult_minus_distr_r, <- Ye, <- Uh. lra.
        - apply (no_midpoint x c (2 * m + 1) (e - 1) Fx Fc); [lra| |lia|].
          + rewrite Z.odd_add, Z.odd_mul. reflexivity.
          + rewrite Ez, (Rmult_comm c). f_equal. rewrite plus_IZR, Rmult_plus_distr_r, <- Ye, <- Uh. lra. }
      right. apply Rle_antisym.
      + apply round_N_le_midp; [auto with typeclass_instances|exact Fy|]. rewrite Sy.
        assert (w - y <= Rabs (w - y)) by apply Rle_abs. unfold h in *. lra.
      + apply round_N_ge_midp; [auto with typeclass_instances|exact Fy|]. rewrite Pd.
        assert (y - w <= Rabs (w - y)) by (rewrite Rabs_minus_sym; apply Rle_abs). unfold h in *. lra.
  Qed.

  Corollary cycle_twice x c : F x -> F c -> 0 < x -> 0 < c ->
    let f t := rn (rn (t / c) * c) in f (f x) = f x.
  Proof.
    intros Fx Fc Px Pc. cbv zeta. destruct (cycle x c Fx Fc Px Pc) as [E|E]; cbv zeta in E.
    - rewrite E. exact E.
    - now rewrite E.
  Qed.
End Cycle.
