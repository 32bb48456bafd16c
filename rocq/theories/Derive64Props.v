(** C96: the derived variables of a hit in double precision. *)
From Coq Require Import Reals ZArith Bool String List Lia Lra Psatz.
From Flocq Require Import Core BinarySingleNaN.
From Verif Require Import Num HitcoreModel FloatModel MomentSpec FloatArith Bin64Model Bin64Spec Bin64Proofs
  Shell64Model Shell64Spec Shell64Proofs Shell64Props File64Model Move64Proofs Move64Props Derive64Model Derive64Spec Derive64Proofs.
Import ListNotations.
Open Scope R_scope.

Lemma moderate_at h v : all_moderate h -> fin (fg h v) = true /\ scaled 300 (val (fg h v)).
Proof. intros M. apply moderate_scaled. apply M. Qed.

Lemma right_refl (y : b64) c : 0 <= c -> finite y = true -> right c y (value y).
Proof.
  intros C F. split; [exact F|]. rewrite Rminus_diag_eq by reflexivity. rewrite Rabs_R0. rewrite pow_m53. pose proof u_pos.
  apply Rmult_le_pos; [apply Rmult_le_pos; lra|apply Rabs_pos].
Qed.

(** Each derived variable is what it is defined to be, up to twelve roundings. *)
Theorem C96_get L h k r : accurate L -> all_moderate h -> In (k, r) (meaning h) ->
  exists y, derived64 L h k = Some (inr y) /\ right 24 y r.
Proof.
  intros A M I. pose proof (fun v => moderate_at h v M) as G.
  cbv [meaning] in I. cbn [In] in I.
  repeat (destruct I as [I|I]; [injection I as <- <-|]); [..|contradiction].
  - destruct (G Vpx), (G Vpy), (G Vpz). destruct (norm_like L A (fg h Vpx) (fg h Vpy) (fg h Vpz)) as (s & E & F & K); try assumption.
    exists s. split; [change (Some (lift (norm64 L (fg h Vpx) (fg h Vpy) (fg h Vpz))) = Some (inr s)); now rewrite E|].
    apply (like_right 12); [lia|simpl; lra|exact F|exact K].
  - destruct (G Vx), (G Vy). destruct (hypot_like L A (fg h Vx) (fg h Vy)) as (s & E & F & K); try assumption.
    exists s. split; [change (Some (lift (hypot64 L (fg h Vx) (fg h Vy))) = Some (inr s)); now rewrite E|].
    apply (like_right 11); [lia|simpl; lra|exact F|exact K].
  - destruct (G Vpx), (G Vpy). destruct (hypot_like L A (fg h Vpx) (fg h Vpy)) as (s & E & F & K); try assumption.
    exists s. split; [change (Some (lift (hypot64 L (fg h Vpx) (fg h Vpy))) = Some (inr s)); now rewrite E|].
    apply (like_right 11); [lia|simpl; lra|exact F|exact K].
  - destruct (G Vsx), (G Vsy), (G Vsz). destruct (norm_like L A (fg h Vsx) (fg h Vsy) (fg h Vsz)) as (s & E & F & K); try assumption.
    exists s. split; [change (Some (lift (norm64 L (fg h Vsx) (fg h Vsy) (fg h Vsz))) = Some (inr s)); now rewrite E|].
    apply (like_right 12); [lia|simpl; lra|exact F|exact K].
  - destruct (G Vx), (G Vy). destruct (sum_sq_like L A (fg h Vx) (fg h Vy)) as (s & E & F & K & _); try assumption.
    exists s. split; [change (Some (lift (sum_sq L (fg h Vx) (fg h Vy))) = Some (inr s)); now rewrite E|].
    apply (like_right 6); [lia|simpl; lra|exact F|exact K].
  - destruct (G Vt) as [Ft St]. destruct c_light_like as (Fc & Kc & Sc).
    destruct (mul_like (fg h Vt) c_light64 0 1 _ _ 300 40 Ft Fc (like_refl _) Kc St Sc) as [F K]; try lia.
    eexists. split; [reflexivity|]. apply (like_right 2); [lia|simpl; lra|exact F|exact K].
  - exists fone. split; [reflexivity|]. destruct one_val as [F V]. unfold value. rewrite <- V. apply right_refl; [lra|exact F].
  - destruct (G Venergy) as [Fe Se], (G Vmass) as [Fm Sm].
    destruct (sub_ok (fg h Venergy) (fg h Vmass) Fe Fm) as (F & d & D & V).
    { apply scaled_abs in Se, Sm; [|lia..]. unfold Rminus. eapply Rle_trans; [apply Rabs_triang|]. rewrite Rabs_Ropp.
      apply Rle_trans with (pow2 301); [change (pow2 301) with (pow2 (300 + 1)); rewrite bpow_plus; simpl (pow2 1); lra|apply bpow_le; lia]. }
    eexists. split; [reflexivity|]. apply (like_right 1); [lia|simpl; lra|exact F|]. apply (like_one _ _ d); [exact D|exact V].
Qed.

(** So are the slopes, unless pz is zero. *)
Theorem C96_slopes L h k r : accurate L -> all_moderate h -> of_hit h Vpz <> 0 -> In (k, r) (meaning_slopes h) ->
  exists y, derived64 L h k = Some (inr y) /\ right 24 y r.
Proof.
  intros A M NZ I. pose proof (fun v => moderate_at h v M) as G. destruct (G Vpz) as [Fz Sz].
  assert (Nz : feq (fg h Vpz) fzero = false).
  { destruct (feq (fg h Vpz) fzero) eqn:E; [|reflexivity]. apply feq_zero in E; [|exact Fz]. now elim NZ. }
  assert (D : forall (x : b64) n s e, fin x = true -> like n s (val x) -> scaled e s -> (0 <= e <= 600)%Z -> (n <= 11)%nat ->
    exists y, py_div64 x (fg h Vpz) = inr y /\ right 24 y (s / of_hit h Vpz)).
  { intros x n s e F K S E N. unfold py_div64. rewrite Nz.
    destruct (div_like x (fg h Vpz) n 0 s _ e 300 F K (like_refl _) NZ S Sz) as (F' & K' & _); try lia.
    eexists. split; [reflexivity|]. apply (like_right (n + 0 + 1)); [lia| |exact F'|exact K'].
    assert (INR (n + 0 + 1) <= INR 12) by (apply le_INR; lia). simpl (INR 12) in *. lra. }
  cbv [meaning_slopes] in I. cbn [In] in I.
  repeat (destruct I as [I|I]; [injection I as <- <-|]); [..|contradiction].
  - destruct (G Vpx) as [F S]. destruct (D _ 0%nat _ 300%Z F (like_refl _) S) as (y & E & R1); [lia|lia|].
    exists y. split; [change (Some (py_div64 (fg h Vpx) (fg h Vpz)) = Some (inr y)); now rewrite E|exact R1].
  - destruct (G Vpy) as [F S]. destruct (D _ 0%nat _ 300%Z F (like_refl _) S) as (y & E & R1); [lia|lia|].
    exists y. split; [change (Some (py_div64 (fg h Vpy) (fg h Vpz)) = Some (inr y)); now rewrite E|exact R1].
  - destruct (G Venergy) as [F S].
    destruct (D (fopp (fg h Venergy)) 0%nat (- of_hit h Venergy) 300%Z (opp_fin _ F)) as (y & E & R1); [rewrite opp_val; apply like_refl|apply scaled_opp; exact S|lia|lia|].
    exists y. split; [change (Some (py_div64 (fopp (fg h Venergy)) (fg h Vpz)) = Some (inr y)); now rewrite E|exact R1].
  - destruct (G Venergy) as [F S].
    destruct (D (fopp (fg h Venergy)) 0%nat (- of_hit h Venergy) 300%Z (opp_fin _ F)) as (y & E & R1); [rewrite opp_val; apply like_refl|apply scaled_opp; exact S|lia|lia|].
    exists y. split; [change (Some (py_div64 (fopp (fg h Venergy)) (fg h Vpz)) = Some (inr y)); now rewrite E|exact R1].
  - destruct (G Vpx) as [Fx Sx], (G Vpy) as [Fy Sy].
    destruct (hypot_like L A (fg h Vpx) (fg h Vpy) Fx Fy Sx Sy) as (s & E & F & K).
    destruct (sum_sq_like L A (fg h Vpx) (fg h Vpy) Fx Fy Sx Sy) as (_ & _ & _ & _ & S).
    destruct (D s 11%nat _ 301%Z F K) as (y & E' & R1); [apply scaled_sqrt; [apply sum_nonneg|apply (scaled_le 601); [lia|exact S]]|lia|lia|].
    exists y. split; [|exact R1].
    change (Some (match lift (hypot64 L (fg h Vpx) (fg h Vpy)) with inl e => inl e | inr pt => py_div64 pt (fg h Vpz) end) = Some (inr y)).
    rewrite E. cbn [lift]. now rewrite E'.
Qed.

(** With pz = 0 they raise ZeroDivisionError, whatever the other members are (r' only once pt is there). *)
Theorem C96_zero_raises L h k : finite (h_dbl (N := B64Num) h Vpz) = true -> of_hit h Vpz = 0 ->
  In k ["x'"; "y'"; "t'"; "ct'"]%string \/ (k = "r'"%string /\ accurate L /\ all_moderate h) ->
  derived64 L h k = Some (inl DZeroDivision).
Proof.
  intros F Z I. assert (Nz : feq (fg h Vpz) fzero = true) by (apply feq_zero; assumption).
  assert (D : forall x, py_div64 x (fg h Vpz) = inl DZeroDivision) by (intros x; unfold py_div64; now rewrite Nz).
  destruct I as [I|(-> & A & M)].
  - cbn [In] in I. repeat (destruct I as [<- |I]; [exact (f_equal Some (D _))|]). contradiction.
  - destruct (moderate_at h Vpx M) as [Fx Sx]. destruct (moderate_at h Vpy M) as [Fy Sy].
    destruct (hypot_like L A _ _ Fx Fy Sx Sy) as (s & E & _ & _).
    change (Some (match lift (hypot64 L (fg h Vpx) (fg h Vpy)) with inl e => inl e | inr pt => py_div64 pt (fg h Vpz) end) = Some (inl DZeroDivision)).
    rewrite E. cbn [lift]. now rewrite D.
Qed.

(** The angular momentum is a difference: its error is small beside its two terms. *)
Theorem C96_l_kin L h : all_moderate h ->
  let a := of_hit h Vx * of_hit h Vpy in let b := of_hit h Vy * of_hit h Vpx in
  exists y, derived64 L h "l_kin" = Some (inr y) /\ finite y = true /\
    Rabs (value y - (a - b)) <= 4 * / 2 ^ 53 * (Rabs a + Rabs b).
Proof.
  intros M a b. pose proof (fun v => moderate_at h v M) as G.
  destruct (G Vx) as [F1 S1], (G Vpy) as [F2 S2], (G Vy) as [F3 S3], (G Vpx) as [F4 S4].
  pose proof (scaled_mul 300 300 _ _ S1 S2) as Sa. pose proof (scaled_mul 300 300 _ _ S3 S4) as Sb. change (300 + 300)%Z with 600%Z in *.
  destruct (mul_like _ _ 0 0 _ _ 300 300 F1 F2 (like_refl _) (like_refl _) S1 S2) as [Fa Ka]; try lia.
  destruct (mul_like _ _ 0 0 _ _ 300 300 F3 F4 (like_refl _) (like_refl _) S3 S4) as [Fb Kb]; try lia.
  pose proof (like_abs 1 _ _ 600 ltac:(lia) Ka (scaled_abs 600 _ ltac:(lia) Sa)) as Ba.
  pose proof (like_abs 1 _ _ 600 ltac:(lia) Kb (scaled_abs 600 _ ltac:(lia) Sb)) as Bb.
  cbn [Nat.add] in Ka, Kb. destruct Ka as (ha & Ha & Ea), Kb as (hb & Hb & Eb).
  destruct (sub_ok _ _ Fa Fb) as (F & d & D & V).
  { unfold Rminus. eapply Rle_trans; [apply Rabs_triang|]. rewrite Rabs_Ropp. change (600 + 1)%Z with 601%Z in *.
    apply Rle_trans with (pow2 602); [change (pow2 602) with (pow2 (601 + 1)); rewrite bpow_plus; simpl (pow2 1); lra|apply bpow_le; lia]. }
  eexists. split; [reflexivity|]. split; [exact F|]. rewrite pow_m53.
  change (Rabs (val (fsub (fmul (fg h Vx) (fg h Vpy)) (fmul (fg h Vy) (fg h Vpx))) - (a - b)) <= 4 * u * (Rabs a + Rabs b)).
  rewrite V, Ea, Eb. change (val (fg h Vx) * val (fg h Vpy)) with a. change (val (fg h Vy) * val (fg h Vpx)) with b.
  assert (Qa : Rabs (ha - 1) <= 2 * u).
  { apply near_close in Ha; [|apply small_n; lia]. change (INR 1) with 1 in Ha. rewrite Rmult_1_r in Ha. exact Ha. }
  assert (Qb : Rabs (hb - 1) <= 2 * u).
  { apply near_close in Hb; [|apply small_n; lia]. change (INR 1) with 1 in Hb. rewrite Rmult_1_r in Hb. exact Hb. }
  replace ((a * ha - b * hb) * (1 + d) - (a - b)) with (a * ((ha - 1) + ha * d) + - (b * ((hb - 1) + hb * d))) by ring.
  assert (W : forall z, Rabs (z - 1) <= 2 * u -> Rabs ((z - 1) + z * d) <= 4 * u).
  { intros z Hz. pose proof u_pos. pose proof u_small. replace (z - 1 + z * d) with ((z - 1) + d + (z - 1) * d) by ring.
    eapply Rle_trans; [apply Rabs_triang|]. rewrite Rabs_mult.
    assert (Rabs (z - 1 + d) <= 3 * u) by (eapply Rle_trans; [apply Rabs_triang|lra]).
    assert (Rabs (z - 1) * Rabs d <= (2 * u) * u) by (apply Rmult_le_compat; auto using Rabs_pos).
    assert (2 * u * u <= u) by nra. lra. }
  eapply Rle_trans; [apply Rabs_triang|]. rewrite Rabs_Ropp, !Rabs_mult.
  pose proof (Rmult_le_compat_l (Rabs a) _ _ (Rabs_pos a) (W ha Qa)). pose proof (Rmult_le_compat_l (Rabs b) _ _ (Rabs_pos b) (W hb Qb)). lra.
Qed.

(** ---- setting ---------------------------------------------------------------------- *)
Lemma flt_cmp (x y : b64) : fin x = true -> fin y = true -> flt x y = true <-> val x < val y.
Proof.
  intros F G. pose proof (Bltb_correct _ _ x y F G) as E. change (flt x y = Rlt_bool (val x) (val y)) in E. rewrite E.
  destruct (Rlt_bool_spec (val x) (val y)) as [H|H]; split; intros Q; try reflexivity; try exact H; [discriminate|exfalso; lra].
Qed.
Lemma tiny_cmp (x : b64) : fin x = true -> flt (fabs x) tiny = true <-> Rabs (val x) < val tiny.
Proof.
  intros F. destruct tiny_val as [Ft _].
  assert (Fa : fin (fabs x) = true) by exact (eq_trans (is_finite_Babs _ _ x) F).
  rewrite <- abs_val. now apply flt_cmp.
Qed.

Definition slope (k : string) (v : DblVar) : Prop := (k = "x'"%string /\ v = Vpx) \/ (k = "y'"%string /\ v = Vpy).

(** Setting a slope changes one momentum only, and reads back up to two roundings. *)
Theorem C96_set_slope L h k v x : slope k v -> moderate x -> moderate (h_dbl (N := B64Num) h Vpz) -> value tiny <= Rabs (of_hit h Vpz) ->
  exists h' y, derived_set64 h k x = Some (h', None) /\ others_kept [v] h h' /\ derived64 L h' k = Some (inr y) /\ right 4 y (value x).
Proof.
  intros K Mx Mz T. apply moderate_scaled in Mx, Mz. destruct Mx as [Fx Sx], Mz as [Fz Sz]. change (h_dbl h Vpz) with (fg h Vpz) in *.
  assert (B : flt (fabs (fg h Vpz)) tiny = false).
  { destruct (flt (fabs (fg h Vpz)) tiny) eqn:E; [|reflexivity]. apply tiny_cmp in E; [|exact Fz].
    unfold of_hit in T. change (h_dbl h Vpz) with (fg h Vpz) in T. lra. }
  assert (NZ : val (fg h Vpz) <> 0).
  { intros Q. unfold of_hit in T. change (h_dbl h Vpz) with (fg h Vpz) in T. rewrite Q, Rabs_R0 in T.
    destruct tiny_val as [_ P]. lra. }
  assert (Nz : feq (fg h Vpz) fzero = false).
  { destruct (feq (fg h Vpz) fzero) eqn:E; [|reflexivity]. apply feq_zero in E; [contradiction|exact Fz]. }
  destruct (mul_like x (fg h Vpz) 0 0 _ _ 300 300 Fx Fz (like_refl _) (like_refl _) Sx Sz) as [F1 K1]; try lia.
  pose proof (scaled_mul 300 300 _ _ Sx Sz) as S1.
  destruct (div_like (fmul x (fg h Vpz)) (fg h Vpz) 1 0 _ _ 600 300 F1 K1 (like_refl _) NZ S1 Sz) as (F2 & K2 & _); try lia.
  replace (val x * val (fg h Vpz) / val (fg h Vpz)) with (val x) in K2 by (field; exact NZ).
  exists (fs h v (fmul x (fg h Vpz))), (fdiv (fmul x (fg h Vpz)) (fg h Vpz)).
  assert (Sv : set_slope64 v x h = (fs h v (fmul x (fg h Vpz)), None)) by (unfold set_slope64; now rewrite B).
  assert (Nv : v <> Vpz) by (destruct K as [[_ ->]|[_ ->]]; discriminate).
  assert (Gv : py_div64 (fg (fs h v (fmul x (fg h Vpz))) v) (fg (fs h v (fmul x (fg h Vpz))) Vpz) = inr (fdiv (fmul x (fg h Vpz)) (fg h Vpz))).
  { rewrite fs_same, fs_other by exact Nv. unfold py_div64. now rewrite Nz. }
  split; [|split; [|split]].
  - destruct K as [[-> ->]|[-> ->]]; exact (f_equal Some Sv).
  - split; [|reflexivity]. intros w W. change (fg (fs h v (fmul x (fg h Vpz))) w = fg h w). apply fs_other. intros ->. apply W. now left.
  - destruct K as [[-> ->]|[-> ->]]; exact (f_equal Some Gv).
  - apply (like_right 2); [lia|simpl; lra|exact F2|exact K2].
Qed.

(** Below 1e-9 it raises and leaves the hit. *)
Theorem C96_slope_raises h k x : In k ["x'"; "y'"; "t'"]%string -> finite (h_dbl (N := B64Num) h Vpz) = true ->
  Rabs (of_hit h Vpz) < value tiny -> derived_set64 h k x = Some (h, Some DFloatingPoint).
Proof.
  intros I F T. assert (B : flt (fabs (fg h Vpz)) tiny = true) by (apply tiny_cmp; assumption).
  cbn [In] in I. destruct I as [<- |[<- |[<- |[]]]].
  - change (Some (set_slope64 Vpx x h) = Some (h, Some DFloatingPoint)). unfold set_slope64. now rewrite B.
  - change (Some (set_slope64 Vpy x h) = Some (h, Some DFloatingPoint)). unfold set_slope64. now rewrite B.
  - change (Some (set_tP64 x h) = Some (h, Some DFloatingPoint)). unfold set_tP64. now rewrite B.
Qed.

(** Setting t' makes pz positive, changes the energy and nothing else, and reads back up to two roundings; it raises
    exactly when the energy it has set is less than the mass. *)
Theorem C96_set_tP L h x : moderate x -> all_moderate h -> value tiny <= Rabs (of_hit h Vpz) ->
  exists h' e y, derived_set64 h "t'" x = Some (h', e) /\
    (e = None /\ of_hit h' Vmass <= of_hit h' Venergy \/ e = Some DFloatingPoint /\ of_hit h' Venergy < of_hit h' Vmass) /\
    of_hit h' Vpz = Rabs (of_hit h Vpz) /\ others_kept [Venergy; Vpz] h h' /\
    derived64 L h' "t'" = Some (inr y) /\ right 4 y (value x).
Proof.
  intros Mx M T. destruct (moderate_at h Vpz M) as [Fz Sz]. destruct (moderate_at h Vmass M) as [Fm Sm].
  apply moderate_scaled in Mx. destruct Mx as [Fx Sx].
  assert (B : flt (fabs (fg h Vpz)) tiny = false).
  { destruct (flt (fabs (fg h Vpz)) tiny) eqn:E; [|reflexivity]. apply tiny_cmp in E; [|exact Fz].
    unfold of_hit in T. change (h_dbl h Vpz) with (fg h Vpz) in T. lra. }
  assert (NZ : val (fg h Vpz) <> 0).
  { intros Q. unfold of_hit in T. change (h_dbl h Vpz) with (fg h Vpz) in T. rewrite Q, Rabs_R0 in T.
    destruct tiny_val as [_ P]. lra. }
  destruct (mul_like (fopp x) (fg h Vpz) 0 0 (- val x) (val (fg h Vpz)) 300 300 (opp_fin _ Fx) Fz) as [F1 K1]; try lia; try exact Sz;
    [rewrite opp_val; apply like_refl|apply like_refl|apply scaled_opp; exact Sx|].
  pose proof (scaled_mul 300 300 _ _ (scaled_opp _ _ Sx) Sz) as S1. change (300 + 300)%Z with 600%Z in S1. cbn [Nat.add] in K1.
  assert (C : exists (h2 : FHit) (e2 p2 : b64), fg h2 Venergy = e2 /\ fg h2 Vpz = p2 /\ fg h2 Vmass = fg h Vmass /\
     set_tP64 x h = (if flt e2 (fg h Vmass) then (h2, Some DFloatingPoint) else (h2, None)) /\
     fin e2 = true /\ like 1 (- val x * Rabs (val (fg h Vpz))) (val e2) /\ fin p2 = true /\ val p2 = Rabs (val (fg h Vpz)) /\
     others_kept [Venergy; Vpz] h h2).
  { unfold set_tP64. rewrite B. cbv zeta. rewrite fs_other by discriminate.
    assert (Lt : flt (fg h Vpz) fzero = true <-> val (fg h Vpz) < 0).
    { exact (flt_cmp (fg h Vpz) fzero Fz eq_refl). }
    destruct (flt (fg h Vpz) fzero) eqn:Neg.
    - destruct (mul_m1 (fmul (fopp x) (fg h Vpz)) F1) as [F2 V2].
      { apply (scaled_le 601); [lia|]. change 601%Z with (600 + 1)%Z. apply (like_scaled 1 600 _ _ (small_n 1 ltac:(lia)) K1 S1). }
      destruct (mul_m1 (fg h Vpz) Fz) as [F3 V3]; [apply (scaled_le 300); [lia|exact Sz]|].
      assert (P : val (fg h Vpz) < 0) by now apply Lt.
      eexists. exists (fmul (fmul (fopp x) (fg h Vpz)) (b64_of_Z (-1))), (fmul (fg h Vpz) (b64_of_Z (-1))).
      split; [|split; [|split; [|split]]].
      5:{ split; [exact F2|]. split; [|split; [exact F3|split; [rewrite V3; symmetry; apply Rabs_left; exact P|]]].
          - rewrite V2, (Rabs_left _ P). destruct K1 as (hh & H1 & E1). exists hh. split; [exact H1|]. rewrite E1. ring.
          - instantiate (1 := fs (fs (fs h Venergy (fmul (fopp x) (fg h Vpz))) Venergy (fmul (fmul (fopp x) (fg h Vpz)) (b64_of_Z (-1)))) Vpz (fmul (fg h Vpz) (b64_of_Z (-1)))).
            split; [|reflexivity]. intros w W.
            match goal with |- h_dbl ?a w = h_dbl ?b w => change (fg a w = fg b w) end.
            assert (Vpz <> w) by (intros <-; apply W; now right; left). assert (Venergy <> w) by (intros <-; apply W; now left).
            now rewrite !fs_other by assumption. }
      + now rewrite fs_other, fs_same by discriminate.
      + now rewrite fs_same.
      + now rewrite !fs_other by discriminate.
      + rewrite ?fs_same, ?fs_other, ?fs_same, ?fs_other, ?fs_same by discriminate. reflexivity.
    - assert (P : 0 < val (fg h Vpz)).
      { destruct (Rtotal_order 0 (val (fg h Vpz))) as [H|[H|H]]; [exact H|now elim NZ|]. apply Lt in H. discriminate. }
      exists (fs h Venergy (fmul (fopp x) (fg h Vpz))), (fmul (fopp x) (fg h Vpz)), (fg h Vpz).
      split; [now rewrite fs_same|]. split; [now rewrite fs_other by discriminate|]. split; [now rewrite fs_other by discriminate|].
      split; [rewrite fs_same, fs_other by discriminate; reflexivity|]. split; [exact F1|]. rewrite Rabs_right by lra. split; [exact K1|].
      split; [exact Fz|]. split; [reflexivity|]. split; [|reflexivity]. intros w W.
      match goal with |- h_dbl ?a w = h_dbl ?b w => change (fg a w = fg b w) end. apply fs_other. intros <-. apply W. now left. }
  destruct C as (h2 & e2 & p2 & E1 & E2 & E3 & St & Fe & Ke & Fp & Vp & O).
  assert (Sp : scaled 300 (val p2)).
  { rewrite Vp. destruct (Rcase_abs (val (fg h Vpz))) as [N|N]; [rewrite Rabs_left by exact N; apply scaled_opp; exact Sz|rewrite Rabs_right by exact N; exact Sz]. }
  assert (Np : val p2 <> 0) by (rewrite Vp; now apply Rabs_no_R0).
  assert (Se : scaled 600 (- val x * Rabs (val (fg h Vpz)))) by (rewrite <- Vp; apply (scaled_mul 300 300); [apply scaled_opp; exact Sx|exact Sp]).
  assert (Nf : feq p2 fzero = false).
  { destruct (feq p2 fzero) eqn:E; [|reflexivity]. apply feq_zero in E; [contradiction|exact Fp]. }
  destruct (div_like (fopp e2) p2 1 0 (- (- val x * Rabs (val (fg h Vpz)))) (val p2) 600 300 (opp_fin _ Fe)) as (Fy & Ky & _); try lia; try exact Np; try exact Sp;
    [rewrite opp_val; destruct Ke as (hh & H1 & H2); exists hh; split; [exact H1|rewrite H2; ring]|apply like_refl|apply scaled_opp; exact Se|].
  replace (- (- val x * Rabs (val (fg h Vpz))) / val p2) with (val x) in Ky by (rewrite Vp; field; now apply Rabs_no_R0).
  exists h2. eexists. exists (fdiv (fopp e2) p2).
  assert (Cm : flt e2 (fg h Vmass) = true <-> val e2 < val (fg h Vmass)).
  { exact (flt_cmp e2 (fg h Vmass) Fe Fm). }
  split; [|split; [|split; [|split; [exact O|split]]]].
  - instantiate (1 := if flt e2 (fg h Vmass) then Some DFloatingPoint else None). transitivity (Some (set_tP64 x h)); [reflexivity|].
    rewrite St. destruct (flt e2 (fg h Vmass)); reflexivity.
  - assert (X1 : of_hit h2 Vmass = val (fg h Vmass)) by (rewrite <- E3; reflexivity).
    assert (X2 : of_hit h2 Venergy = val e2) by (rewrite <- E1; reflexivity). rewrite X1, X2.
    destruct (flt e2 (fg h Vmass)) eqn:Q; [right; split; [reflexivity|now apply Cm]|left; split; [reflexivity|]].
    apply Rnot_lt_le. intros H. apply Cm in H. discriminate.
  - transitivity (val p2); [rewrite <- E2; reflexivity|exact Vp].
  - transitivity (Some (py_div64 (fopp (fg h2 Venergy)) (fg h2 Vpz))); [reflexivity|]. rewrite E1, E2. unfold py_div64. now rewrite Nf.
  - apply (like_right 2); [lia|simpl; lra|exact Fy|exact Ky].
Qed.

(** Setting ct changes t only, and reads back up to four roundings. *)
Theorem C96_set_ct L h x : moderate x ->
  exists h' y, derived_set64 h "ct" x = Some (h', None) /\ others_kept [Vt] h h' /\ derived64 L h' "ct" = Some (inr y) /\ right 8 y (value x).
Proof.
  intros Mx. apply moderate_scaled in Mx. destruct Mx as [Fx Sx]. destruct c_light_like as (Fc & Kc & Sc).
  destruct (div_like x c_light64 0 1 _ _ 300 40 Fx (like_refl _) Kc ltac:(lra) Sx Sc) as (F1 & K1 & S1); try lia.
  destruct (mul_like _ c_light64 2 1 _ _ 340 40 F1 Fc K1 Kc S1 Sc) as [F2 K2]; try lia.
  replace (val x / (299792458 / 1000000) * (299792458 / 1000000)) with (val x) in K2 by (field; lra).
  exists (fs h Vt (fdiv x c_light64)), (fmul (fdiv x c_light64) c_light64). split; [reflexivity|]. split; [|split].
  - split; [|reflexivity]. intros w W. match goal with |- h_dbl ?a w = h_dbl ?b w => change (fg a w = fg b w) end.
    apply fs_other. intros <-. apply W. now left.
  - transitivity (Some (@inr DErr b64 (fmul (fg (fs h Vt (fdiv x c_light64)) Vt) c_light64))); [reflexivity|]. now rewrite fs_same.
  - apply (like_right 4); [lia|simpl; lra|exact F2|exact K2].
Qed.

(** Setting the kinetic energy changes the energy only; it reads back up to roundings of the energy. *)
Theorem C96_set_ek L h x : moderate x -> moderate (h_dbl (N := B64Num) h Vmass) ->
  exists h' y, derived_set64 h "kinetic_energy" x = Some (h', None) /\ others_kept [Venergy] h h' /\
    derived64 L h' "kinetic_energy" = Some (inr y) /\ finite y = true /\
    Rabs (value y - value x) <= 3 * / 2 ^ 53 * (Rabs (value x) + Rabs (of_hit h Vmass)).
Proof.
  intros Mx Mm. apply moderate_scaled in Mx, Mm. destruct Mx as [Fx Sx], Mm as [Fm Sm]. change (h_dbl h Vmass) with (fg h Vmass) in *.
  apply scaled_abs in Sx, Sm; [|lia..]. pose proof u_pos as Pu. pose proof u_small as Su.
  assert (P1 : pow2 301 = 2 * pow2 300) by (change (pow2 301) with (pow2 (300 + 1)); rewrite bpow_plus; simpl (pow2 1); lra).
  assert (P2 : pow2 303 = 8 * pow2 300) by (change (pow2 303) with (pow2 (300 + 3)); rewrite bpow_plus; simpl (pow2 3); lra).
  assert (T : Rabs (val x + val (fg h Vmass)) <= Rabs (val x) + Rabs (val (fg h Vmass))) by apply Rabs_triang.
  destruct (add_ok x (fg h Vmass) Fx Fm) as (F1 & d & D & V1).
  { apply Rle_trans with (pow2 301); [lra|apply bpow_le; lia]. }
  set (w := val x + val (fg h Vmass)) in *.
  assert (Dw : Rabs (w * d) <= u * Rabs w) by (rewrite Rabs_mult, (Rmult_comm u); apply Rmult_le_compat_l; [apply Rabs_pos|exact D]).
  assert (E1 : val (fadd x (fg h Vmass)) - val (fg h Vmass) = val x + w * d) by (rewrite V1; unfold w; ring).
  assert (U1 : u * Rabs w <= Rabs w) by (pose proof (Rabs_pos w); nra).
  destruct (sub_ok _ (fg h Vmass) F1 Fm) as (F2 & e & E & V2).
  { rewrite E1. eapply Rle_trans; [apply Rabs_triang|]. apply Rle_trans with (pow2 303); [|apply bpow_le; lia]. pose proof (bpow_ge_0 radix2 300). lra. }
  exists (fs h Venergy (fadd x (fg h Vmass))), (fsub (fadd x (fg h Vmass)) (fg h Vmass)). split; [reflexivity|]. split; [|split; [|split; [exact F2|]]].
  - split; [|reflexivity]. intros v W. match goal with |- h_dbl ?a v = h_dbl ?b v => change (fg a v = fg b v) end.
    apply fs_other. intros <-. apply W. now left.
  - transitivity (Some (@inr DErr b64 (fsub (fg (fs h Venergy (fadd x (fg h Vmass))) Venergy) (fg (fs h Venergy (fadd x (fg h Vmass))) Vmass)))); [reflexivity|].
    now rewrite fs_same, fs_other by discriminate.
  - rewrite pow_m53.
    change (Rabs (val (fsub (fadd x (fg h Vmass)) (fg h Vmass)) - val x) <= 3 * u * (Rabs (val x) + Rabs (val (fg h Vmass)))).
    rewrite V2, E1. replace ((val x + w * d) * (1 + e) - val x) with (w * d + (val x * e + w * d * e)) by ring.
    eapply Rle_trans; [apply Rabs_triang|]. pose proof (Rabs_triang (val x * e) (w * d * e)) as T2.
    rewrite (Rabs_mult (w * d) e), (Rabs_mult (val x) e) in T2.
    pose proof (Rabs_pos (val x)). pose proof (Rabs_pos (val (fg h Vmass))). pose proof (Rabs_pos w).
    assert (Q1 : Rabs (val x) * Rabs e <= Rabs (val x) * u) by (apply Rmult_le_compat_l; [apply Rabs_pos|exact E]).
    assert (Q2 : Rabs (w * d) * Rabs e <= (u * Rabs w) * u) by (apply Rmult_le_compat; auto using Rabs_pos).
    assert (Q3 : u * Rabs w <= u * (Rabs (val x) + Rabs (val (fg h Vmass)))) by (apply Rmult_le_compat_l; lra).
    assert (Q5 : 0 <= u * Rabs w) by (apply Rmult_le_pos; lra).
    assert (Q4 : u * Rabs w * u <= u * Rabs w * 1) by (apply Rmult_le_compat_l; lra).
    assert (Q6 : 0 <= u * Rabs (val (fg h Vmass))) by (apply Rmult_le_pos; lra). lra.
Qed.

(** Setting and reading back is not exact: x' = 0.1 with pz = 3. *)
Definition three_hit : FHit := mkHit (N := B64Num)
  (fun v => match v with
            | Vpz => b64_of_Z 3 | Vx => b64_of_Z 4 | Vy => b64_of_Z (-3) | Vpx => b64_of_Z 2 | Vpy => b64_of_Z 1 | Venergy => b64_of_Z 106
            | Vmass => b64_of_Z 105 | _ => fzero
            end) (fun _ => 0%Z).
Definition tenth : b64 := fdiv fone (b64_of_Z 10).
Definition reads_back (h : FHit) (k : string) (x : b64) : option bool :=
  match derived_set64 h k x with
  | Some (h', None) => match derived64 plain h' k with Some (inr y) => Some (feq y x) | _ => None end
  | _ => None
  end.
Theorem C96_exact_refuted : reads_back three_hit "x'" tenth = Some false /\ reads_back three_hit "ct" (b64_of_Z 13) = Some false /\
  reads_back three_hit "kinetic_energy" tenth = Some false /\ reads_back three_hit "x'" (b64_of_Z 2) = Some true.
Proof. repeat split; vm_compute; reflexivity. Qed.

(** The kinetic energy of a muon of 1 eV/c, energy from the mass shell, is zero. *)
Definition crawling : FHit := fs (fs (fs ex_hit Vpx fzero) Vpy fzero) Vpz (fdiv fone (b64_of_Z 1000000)).
Definition is_zero (r : option (DErr + b64)) : option bool := match r with Some (inr y) => Some (feq y fzero) | _ => None end.
Theorem C96_slow_refuted : let h := fst (mass_shell64 plain crawling "energy") in
  snd (mass_shell64 plain crawling "energy") = ShTrue /\ is_zero (derived64 plain h "kinetic_energy") = Some true /\
  is_zero (derived64 plain h "p") = Some false.
Proof. repeat split; vm_compute; reflexivity. Qed.

(** When set_tP raises the energy is changed all the same. *)
Theorem C96_tP_changes_refuted : match derived_set64 three_hit "t'" fone with
  | Some (h', e) => e = Some DFloatingPoint /\ feq (h_dbl (N := B64Num) h' Venergy) (b64_of_Z (-3)) = true
  | None => False
  end.
Proof. vm_compute. split; reflexivity. Qed.

(** The hypotheses hold. *)
Example C96_ex : all_moderate three_hit /\ of_hit three_hit Vpz <> 0 /\ value tiny <= Rabs (of_hit three_hit Vpz) /\ accurate plain /\
  Rabs (of_hit (fs three_hit Vpz fzero) Vpz) < value tiny.
Proof.
  assert (Z1 : forall z, (Z.abs z <= 2 ^ 53)%Z -> moderate (b64_of_Z z)).
  { intros z H. apply moderate_scaled. destruct (ofZ_exact z H) as [F V]. split; [exact F|]. rewrite V.
    destruct (Z.eq_dec z 0) as [-> |N]; [now left|right]. split.
    - apply Rle_trans with 1; [change 1 with (pow2 0); apply bpow_le; lia|]. rewrite <- abs_IZR. apply IZR_le. lia.
    - apply Rle_trans with (pow2 53); [now apply int_small|]. apply bpow_le. lia. }
  assert (V3 : of_hit three_hit Vpz = 3) by (destruct (ofZ_exact 3 ltac:(lia)) as [_ V]; exact V).
  destruct tiny_val as [_ T]. change (val tiny) with (value tiny) in T.
  split; [|split; [rewrite V3; lra|split; [rewrite V3, Rabs_right by lra; lra|split; [exact C92_library_ex|]]]].
  - intros v. cbn [h_dbl three_hit]. destruct v; first [apply Z1; lia|split; [reflexivity|now left]].
  - replace (of_hit (fs three_hit Vpz fzero) Vpz) with 0; [rewrite Rabs_R0; lra|].
    transitivity (value (fg (fs three_hit Vpz fzero) Vpz)); [now rewrite fs_same|reflexivity].
Qed.

Print Assumptions C96_get.
Print Assumptions C96_slopes.
Print Assumptions C96_zero_raises.
Print Assumptions C96_l_kin.
Print Assumptions C96_set_slope.
Print Assumptions C96_slope_raises.
Print Assumptions C96_set_tP.
Print Assumptions C96_set_ct.
Print Assumptions C96_set_ek.
Print Assumptions C96_exact_refuted.
Print Assumptions C96_slow_refuted.
Print Assumptions C96_tP_changes_refuted.
