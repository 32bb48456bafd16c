(** C95: translations and foldings of hits in double precision. *)
From Coq Require Import Reals ZArith Bool String List Lia Lra Psatz.
From Flocq Require Import Core BinarySingleNaN.
From Verif Require Import Num HitcoreModel FloatModel MomentSpec FloatArith Bin64Model Bin64Spec Bin64Proofs
  Shell64Model Shell64Spec Shell64Proofs Shell64Props Move64Model Move64Spec Move64Proofs.
Import ListNotations.
Open Scope R_scope.

Lemma frequency_safe f : frequency f -> safe f.
Proof.
  intros (F & A & B). split; [exact F|]. rewrite pow_inv64 in A. rewrite pow_nat64 in B.
  split; [apply Rle_trans with (2 := A)|apply Rle_trans with (1 := B)]; apply bpow_le; lia.
Qed.
Lemma ordinary_scaled x : ordinary x <-> fin x = true /\ scaled 200 (val x).
Proof. unfold ordinary, scaled. rewrite pow_nat64, <- bpow_opp. reflexivity. Qed.

(** Any stored double is folded into the period around the offset, with a rounding error that grows with the number of
    periods. *)
Theorem C95_period o f k h : finite (h_dbl (N := B64Num) h k) = true -> finite o = true -> frequency f ->
  Rabs (of_hit h k - value o) * value f <= 2 ^ 40 ->
  exists h', period64 o f k h = (h', None) /\ folded o f k h h'.
Proof.
  intros Fh Fo Hf B. destruct (period_ok o f k h Fh Fo (frequency_safe f Hf) B) as (y & n & E & Fy & E1 & E2).
  eexists. split; [exact E|]. unfold folded, of_hit. rewrite pow_m53.
  change (h_dbl (fs (fs h k (fsub (fg h k) o)) k y) k) with (fg (fs (fs h k (fsub (fg h k) o)) k y) k). rewrite fs_same.
  change (h_dbl h k) with (fg h k). split; [exact Fy|]. split; [exists n; exact E1|]. split; [exact E2|].
  split; [|reflexivity]. intros w W. change (fg (fs (fs h k (fsub (fg h k) o)) k y) w = fg h w).
  assert (N : k <> w) by (intros ->; apply W; now left). now rewrite !fs_other by exact N.
Qed.

(** The whole bunch. *)
Theorem C95_bunch o f k hs : finite o = true -> frequency f ->
  (forall h, In h hs -> finite (h_dbl (N := B64Num) h k) = true /\ Rabs (of_hit h k - value o) * value f <= 2 ^ 40) ->
  exists hs', period_all64 o f k hs = (hs', None) /\ Forall2 (folded o f k) hs hs'.
Proof.
  intros Fo Hf. induction hs as [|h r IH]; intros H; [exists []; split; [reflexivity|constructor]|].
  destruct (H h (or_introl eq_refl)) as [Fh B]. destruct (C95_period o f k h Fh Fo Hf B) as (h' & E & G).
  destruct IH as (r' & E' & G'); [intros; apply H; now right|]. exists (h' :: r'). cbn [period_all64]. rewrite E, E'. split; [reflexivity|now constructor].
Qed.

(** A hit that is well inside the period stays as it is, to the last bit. *)
Theorem C95_again f k h : finite (h_dbl (N := B64Num) h k) = true -> frequency f ->
  Rabs (of_hit h k) * value f <= / 2 - / 2 ^ 50 ->
  exists h', period64 fzero f k h = (h', None) /\ others_kept [] h h'.
Proof.
  intros Fh Hf B. destruct (period_again f k h Fh (frequency_safe f Hf) B) as (h' & E & V & I).
  exists h'. split; [exact E|]. split; [intros w _; apply V|exact I].
Qed.

Lemma val_SF (x : b64) s : B2SF x = s -> value x = SF2R radix2 s.
Proof. intros <-. symmetry. apply SF2R_B2SF. Qed.

(** t = -66.5, that is 199 and a half periods of 1/3 before zero: outside the period after the first call, and moved to its other end by
    the next. *)
Definition early : FHit := mkHit (N := B64Num)
  (fun v => match v with Vt => fdiv (b64_of_Z (-133)) (b64_of_Z 2) | _ => fzero end) (fun _ => 0%Z).
Theorem C95_edge_refuted :
  let three := b64_of_Z 3 in
  let h1 := fst (period64 fzero three Vt early) in
  let h2 := fst (period64 fzero three Vt h1) in
  value three = 3 /\ of_hit early Vt = - (665 / 10) /\ of_hit h1 Vt < - / (2 * 3) - / 10 ^ 15 /\ 1 / 7 < of_hit h2 Vt.
Proof.
  cbv zeta.
  assert (E3 : value (b64_of_Z 3) = 3) by (destruct (ofZ_exact 3 ltac:(lia)) as [_ V]; exact V).
  assert (E0 : B2SF (h_dbl (N := B64Num) early Vt) = SpecFloat.S754_finite true 4679521487814656 (-46)) by (vm_compute; reflexivity).
  assert (E1 : exists m e, B2SF (h_dbl (N := B64Num) (fst (period64 fzero (b64_of_Z 3) Vt early)) Vt) = SpecFloat.S754_finite true m e
    /\ IZR (Zneg m) * bpow radix2 e < - / (2 * 3) - / 10 ^ 15).
  { eexists; eexists. split; [vm_compute; reflexivity|]. simpl bpow. lra. }
  assert (E2 : exists m e, B2SF (h_dbl (N := B64Num) (fst (period64 fzero (b64_of_Z 3) Vt (fst (period64 fzero (b64_of_Z 3) Vt early)))) Vt)
    = SpecFloat.S754_finite false m e /\ 1 / 7 < IZR (Zpos m) * bpow radix2 e).
  { eexists; eexists. split; [vm_compute; reflexivity|]. simpl bpow. lra. }
  split; [exact E3|]. unfold of_hit. split; [|split].
  - rewrite (val_SF _ _ E0). unfold SF2R, F2R; cbn [Fnum Fexp cond_Zopp]. simpl. lra.
  - destruct E1 as (m & e & E & I). rewrite (val_SF _ _ E). exact I.
  - destruct E2 as (m & e & E & I). rewrite (val_SF _ _ E). exact I.
Qed.

(** With frequency zero the call raises, the offset already taken from the first hit and no other. *)
Theorem C95_zero_raises o k h r : finite (fsub (h_dbl (N := B64Num) h k) o) = true ->
  period_all64 o fzero k (h :: r) = (fs h k (fsub (h_dbl (N := B64Num) h k) o) :: r, Some MZeroDivision).
Proof.
  intros F. cbn [period_all64]. unfold period64. rewrite fs_same. change (fg h k) with (h_dbl (N := B64Num) h k).
  assert (K : exists z, floor64 (fadd (fmul (fsub (h_dbl (N := B64Num) h k) o) fzero) half64) = inr z).
  { set (x := fsub (h_dbl (N := B64Num) h k) o) in *. destruct x as [s|s| |s m e Hb]; try discriminate F.
    - exists 0%Z. destruct s; vm_compute; reflexivity.
    - exists 0%Z. destruct s; vm_compute; reflexivity. }
  destruct K as [z K].
  match goal with |- context [floor64 ?a] => replace (floor64 a) with (@inr MErr Z z) by (symmetry; exact K) end. reflexivity.
Qed.
(** And a time that is not finite raises. *)
Definition never (b : bool) : FHit := mkHit (N := B64Num)
  (fun v => match v with Vt => if b then B754_nan else B754_infinity false | _ => fzero end) (fun _ => 0%Z).
Theorem C95_never_raises : snd (period64 fzero fone Vt (never true)) = Some MValueError /\
  snd (period64 fzero fone Vt (never false)) = Some MOverflow.
Proof. vm_compute. split; reflexivity. Qed.

(** ---- translations ------------------------------------------------------------------ *)
Lemma move_sum d h v a : NoDup (map fst d) -> In (v, a) d -> ordinary a -> ordinary (h_dbl (N := B64Num) h v) ->
  fin (fg (move64 d h) v) = true /\ like 1 (of_hit h v + value a) (val (fg (move64 d h) v)) /\ scaled 253 (of_hit h v + value a).
Proof.
  intros N I A H. apply ordinary_scaled in A, H. destruct A as [Fa Sa], H as [Fh Sh]. rewrite (move_at d h v a N I).
  pose proof (sum_scaled a (fg h v) Fa Fh Sa Sh) as S.
  destruct (add_ok a (fg h v) Fa Fh) as (F & e & E & V).
  { apply Rle_trans with (pow2 253); [apply scaled_abs; [lia|exact S]|apply bpow_le; lia]. }
  split; [exact F|]. unfold of_hit, value. rewrite Rplus_comm. split; [apply (like_one _ _ e); [exact E|exact V]|exact S].
Qed.

(** Each member named in the dictionary is the sum up to one rounding, the energy fits to the new momentum and mass,
    all else is the same. *)
Theorem C95_translate L d h : accurate L -> NoDup (map fst d) -> ~ In Venergy (map fst d) ->
  (forall v a, In (v, a) d -> ordinary a) -> (forall v, ordinary (h_dbl (N := B64Num) h v)) ->
  exists h', translate64 L d "energy" h = (h', ShTrue) /\
    (forall v a, In (v, a) d -> Rabs (of_hit h' v - (of_hit h v + value a)) <= 2 * / 2 ^ 53 * Rabs (of_hit h v + value a)) /\
    0 <= of_hit h' Venergy /\ Rabs (esq h' - (psq h' + msq h')) <= 40 * / 2 ^ 53 * (psq h' + msq h') /\
    others_kept (Venergy :: map fst d) h h'.
Proof.
  intros A N NE OD OH.
  assert (Mv : forall v, moderate (fg (move64 d h) v)).
  { intros v. apply moderate_scaled. destruct (in_dec dblvar_eq_dec v (map fst d)) as [I|I].
    - apply in_map_iff in I. destruct I as ([w a] & <- & I). cbn [fst].
      destruct (move_sum d h w a N I (OD w a I) (OH w)) as (F & K & S). split; [exact F|].
      apply (scaled_le 254); [lia|]. apply (like_scaled 1 253 _ _ (small_n 1 ltac:(lia)) K S).
    - rewrite move_other by exact I. pose proof (OH v) as O. apply ordinary_scaled in O. destruct O as [F S].
      split; [exact F|]. apply (scaled_le 200); [lia|exact S]. }
  destruct (C92_energy L (move64 d h) A (fun v _ => Mv v)) as (h' & E & (K1 & K2) & P & Sh).
  exists h'. split; [exact E|]. split; [|split; [exact P|split; [exact Sh|]]].
  - intros v a I. assert (Nv : v <> Venergy) by (intros ->; apply NE; apply (in_map fst) in I; exact I).
    destruct (move_sum d h v a N I (OD v a I) (OH v)) as (F & K & S). apply like_error in K; [|apply small_n; lia].
    rewrite pow_m53. change (INR 1) with 1 in K. replace (2 * u) with (2 * 1 * u) by ring.
    unfold of_hit at 1, value. rewrite (K1 v) by (intros [Q|[]]; now apply Nv). exact K.
  - split.
    + intros v I. rewrite (K1 v) by (intros [Q|[]]; apply I; now left). apply move_other. intros J. apply I. now right.
    + rewrite K2. apply move_int.
Qed.

Lemma in_opp d v a : In (v, a) d -> In (v, Bopp a) (back d).
Proof. intros I. apply (in_map (fun q : DblVar * b64 => (fst q, Bopp (snd q)))) in I. exact I. Qed.

(** There and back: a few roundings of the larger of the two. *)
Theorem C95_back L d h h1 : accurate L -> NoDup (map fst d) -> ~ In Venergy (map fst d) ->
  (forall v a, In (v, a) d -> ordinary a) -> (forall v, ordinary (h_dbl (N := B64Num) h v)) ->
  translate64 L d "energy" h = (h1, ShTrue) -> (forall v, ordinary (h_dbl (N := B64Num) h1 v)) ->
  exists h2, translate64 L (back d) "energy" h1 = (h2, ShTrue) /\
    (forall v a, In (v, a) d -> Rabs (of_hit h2 v - of_hit h v) <= 5 * / 2 ^ 53 * (Rabs (of_hit h v) + Rabs (value a))) /\
    others_kept (Venergy :: map fst d) h h2.
Proof.
  intros A N NE OD OH E1 OH1.
  destruct (C95_translate L d h A N NE OD OH) as (h1' & E & T1 & _ & _ & (K1 & K2)). rewrite E in E1. injection E1 as ->.
  set (d' := back d).
  assert (Ef : map fst d' = map fst d) by (unfold d', back; rewrite map_map; reflexivity).
  destruct (C95_translate L d' h1) as (h2 & E2 & T2 & _ & _ & (K3 & K4)).
  - exact A.
  - rewrite Ef. exact N.
  - rewrite Ef. exact NE.
  - intros v b I. unfold d', back in I. apply in_map_iff in I. destruct I as ([w a] & Q & I). cbn [fst snd] in Q. injection Q as <- <-.
    specialize (OD w a I). destruct OD as [F O]. split; [exact (eq_trans (is_finite_Bopp _ _ a) F)|].
    assert (V : value (Bopp a) = - value a) by apply B2R_Bopp. destruct O as [O|O]; [left; transitivity (- value a); [exact V|]; rewrite O; ring|right].
    match goal with |- context [Rabs ?z] => replace z with (- value a) by (symmetry; exact V) end. rewrite Rabs_Ropp. exact O.
  - exact OH1.
  - exists h2. split; [exact E2|]. split.
    + intros v a I. specialize (T1 v a I). specialize (T2 v (Bopp a) (in_opp d v a I)).
      assert (Vo : value (Bopp a) = - value a) by apply B2R_Bopp.
      match type of T2 with context [_ + ?z] => replace z with (- value a) in T2 by (symmetry; exact Vo) end. rewrite pow_m53 in *. pose proof u_pos as U. pose proof u_small as Us.
      set (x := of_hit h v) in *. set (x1 := of_hit h1 v) in *. set (x2 := of_hit h2 v) in *. set (c := value a) in *.
      assert (G1 : Rabs (x + c) <= Rabs x + Rabs c) by apply Rabs_triang.
      assert (G2 : Rabs (x1 + - c) <= Rabs x + 2 * u * (Rabs x + Rabs c)).
      { replace (x1 + - c) with (x + (x1 - (x + c))) by ring. eapply Rle_trans; [apply Rabs_triang|].
        pose proof (Rmult_le_compat_l (2 * u) _ _ ltac:(lra) G1). lra. }
      assert (G3 : Rabs (x2 - x) <= Rabs (x2 - (x1 + - c)) + Rabs (x1 - (x + c))).
      { replace (x2 - x) with ((x2 - (x1 + - c)) + (x1 - (x + c))) by ring. apply Rabs_triang. }
      pose proof (Rabs_pos x). pose proof (Rabs_pos c).
      pose proof (Rmult_le_compat_l (2 * u) _ _ ltac:(lra) G1). pose proof (Rmult_le_compat_l (2 * u) _ _ ltac:(lra) G2).
      assert (2 * u * (2 * u * (Rabs x + Rabs c)) <= u * (Rabs x + Rabs c) / 100).
      { assert (0 <= u * (Rabs x + Rabs c)) by (apply Rmult_le_pos; lra). nra. }
      assert (0 <= u * Rabs c) by (apply Rmult_le_pos; lra). assert (0 <= u * Rabs x) by (apply Rmult_le_pos; lra). lra.
    + rewrite Ef in K3. split; [intros v I; rewrite K3, K1 by exact I; reflexivity|now rewrite K4].
Qed.

(** Not exactly: x = 1 mm moved by 2^60 mm and back is 0. *)
Definition at_one : FHit := mkHit (N := B64Num) (fun v => match v with Vx => fone | _ => fzero end) (fun _ => 0%Z).
Theorem C95_back_refuted : let far := b64_of_Z (2 ^ 60) in
  let h2 := fst (translate64 plain [(Vx, Bopp far)] "energy" (fst (translate64 plain [(Vx, far)] "energy" at_one))) in
  feq (h_dbl (N := B64Num) at_one Vx) fone = true /\ feq (h_dbl (N := B64Num) h2 Vx) fzero = true.
Proof. vm_compute. split; reflexivity. Qed.

(** The hypotheses hold: a hit at t = 23 ns and the 200 MHz of an RF bucket. *)
Definition in_bucket : FHit := mkHit (N := B64Num)
  (fun v => match v with Vt => b64_of_Z 23 | Vpz => b64_of_Z 200 | Vmass => b64_of_Z 105 | _ => fzero end) (fun _ => 0%Z).
Example C95_ex : (forall v, ordinary (h_dbl (N := B64Num) in_bucket v)) /\ frequency (fdiv fone (b64_of_Z 5)) /\
  Rabs (of_hit in_bucket Vt - value fone) * value (fdiv fone (b64_of_Z 5)) <= 2 ^ 40.
Proof.
  assert (Z1 : forall z, (Z.abs z <= 2 ^ 53)%Z -> ordinary (b64_of_Z z)).
  { intros z H. apply ordinary_scaled. destruct (ofZ_exact z H) as [F V]. split; [exact F|]. rewrite V.
    destruct (Z.eq_dec z 0) as [-> |N]; [now left|right]. split.
    - apply Rle_trans with 1; [change 1 with (pow2 0); apply bpow_le; lia|]. rewrite <- abs_IZR. apply IZR_le. lia.
    - apply Rle_trans with (pow2 53); [now apply int_small|]. apply bpow_le. lia. }
  assert (E5 : B2SF (fdiv fone (b64_of_Z 5)) = SpecFloat.S754_finite false 7205759403792794 (-55)) by (vm_compute; reflexivity).
  assert (V5 : 1 / 8 <= value (fdiv fone (b64_of_Z 5)) <= 1 / 2).
  { rewrite (val_SF _ _ E5). unfold SF2R, F2R; cbn [Fnum Fexp cond_Zopp]. simpl bpow. lra. }
  assert (P : 1 <= 2 ^ 200) by (apply pow_R1_Rle; lra).
  split; [|split].
  - intros v. cbn [h_dbl in_bucket]. destruct v; first [apply Z1; lia|split; [reflexivity|now left]].
  - split; [transitivity (is_finite_SF (B2SF (fdiv fone (b64_of_Z 5)))); [symmetry; apply is_finite_SF_B2SF|rewrite E5; reflexivity]|]. split; [|lra].
    apply Rle_trans with (1 / 8); [|lra]. apply Rle_trans with (/ 2 ^ 3); [|simpl; lra].
    apply Rinv_le_contravar; [apply pow_lt; lra|apply Rle_pow; [lra|lia]].
  - unfold of_hit. cbn [h_dbl in_bucket]. destruct (ofZ_exact 23 ltac:(lia)) as [_ V]. destruct one_val as [_ V1].
    rewrite V, V1. rewrite Rabs_right by lra. apply Rle_trans with (22 * (1 / 2)); [nra|]. simpl. lra.
Qed.

Print Assumptions C95_period.
Print Assumptions C95_bunch.
Print Assumptions C95_again.
Print Assumptions C95_edge_refuted.
Print Assumptions C95_zero_raises.
Print Assumptions C95_translate.
Print Assumptions C95_back.
Print Assumptions C95_back_refuted.
