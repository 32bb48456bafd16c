From Coq Require Import Reals ZArith Bool String List Lia Lra Psatz.
From Flocq Require Import Core BinarySingleNaN.
From Verif Require Import Num HitcoreModel FloatModel MomentSpec FloatArith Bin64Model Bin64Spec Bin64Proofs
  Bin64Props Shell64Model Shell64Spec Shell64Proofs Shell64Props Move64Model Move64Spec Move64Proofs Move64Props
  Linear64Model Linear64Spec.
Import ListNotations.
Open Scope R_scope.

(** ---- the spec's scalar product -------------------------------------------------- *)
Lemma inner_close {A} (f g b : A -> R) c : forall r ks,
  (forall k, In k ks -> Rabs (f k - g k) <= c * b k) ->
  Rabs (inner r (map f ks) - inner r (map g ks)) <= c * inner (map Rabs r) (map b ks).
Proof.
  induction r as [|x r IH]; intros ks H; [cbn [inner map]; rewrite Rminus_0_r, Rabs_R0; lra|].
  destruct ks as [|k ks]; [cbn [inner map]; rewrite Rminus_0_r, Rabs_R0; lra|]. cbn [inner map].
  specialize (IH ks (fun j I => H j (or_intror I))). specialize (H k (or_introl eq_refl)).
  replace (x * f k + inner r (map f ks) - (x * g k + inner r (map g ks)))
    with (x * (f k - g k) + (inner r (map f ks) - inner r (map g ks))) by ring.
  eapply Rle_trans; [apply Rabs_triang|]. rewrite Rabs_mult.
  pose proof (Rmult_le_compat_l _ _ _ (Rabs_pos x) H). lra.
Qed.
Lemma inner_le {A} (f g : A -> R) : forall r ks, (forall k, In k ks -> f k <= g k) ->
  inner (map Rabs r) (map f ks) <= inner (map Rabs r) (map g ks).
Proof.
  induction r as [|x r IH]; intros ks H; [cbn [inner map]; lra|]. destruct ks as [|k ks]; [cbn [inner map]; lra|]. cbn [inner map].
  specialize (IH ks (fun j I => H j (or_intror I))). specialize (H k (or_introl eq_refl)).
  pose proof (Rmult_le_compat_l _ _ _ (Rabs_pos x) H). lra.
Qed.
Lemma inner_pos {A} (f : A -> R) : forall r ks, (forall k, In k ks -> 0 <= f k) -> 0 <= inner (map Rabs r) (map f ks).
Proof.
  induction r as [|x r IH]; intros ks H; [cbn [inner map]; lra|]. destruct ks as [|k ks]; [cbn [inner map]; lra|]. cbn [inner map].
  specialize (IH ks (fun j I => H j (or_intror I))). specialize (H k (or_introl eq_refl)).
  pose proof (Rmult_le_pos _ _ (Rabs_pos x) H). lra.
Qed.
Lemma inner_abs : forall a b, Rabs (inner a b) <= inner (map Rabs a) (map Rabs b).
Proof.
  induction a as [|x a IH]; intros [|y b]; cbn [inner map]; try (rewrite Rabs_R0; lra).
  eapply Rle_trans; [apply Rabs_triang|]. rewrite Rabs_mult. specialize (IH b). lra.
Qed.
Lemma inner_scale {A} (f : A -> R) c : forall r ks, inner r (map (fun k => c * f k) ks) = c * inner r (map f ks).
Proof.
  induction r as [|x r IH]; intros [|k ks]; cbn [inner map]; try ring. rewrite IH. ring.
Qed.
Lemma inner_bound {A} (f : A -> R) X Y : 0 <= Y -> forall r ks, Forall (fun x => Rabs x <= X) r ->
  (forall k, In k ks -> 0 <= f k <= Y) -> inner (map Rabs r) (map f ks) <= INR (List.length r) * (X * Y).
Proof.
  intros HY. induction r as [|x r IH]; intros ks HX HF; [cbn [inner map List.length INR]; lra|].
  inversion HX as [|? ? Hx Hr]; subst. assert (P : 0 <= X * Y) by (apply Rmult_le_pos; [pose proof (Rabs_pos x); lra|exact HY]).
  cbn [List.length]. rewrite S_INR. pose proof (pos_INR (List.length r)) as Q. pose proof (Rmult_le_pos _ _ Q P).
  destruct ks as [|k ks]; [cbn [inner map]; lra|]. cbn [inner map].
  specialize (IH ks Hr (fun j I => HF j (or_intror I))). destruct (HF k (or_introl eq_refl)) as [F1 F2].
  assert (Rabs x * f k <= X * Y) by (apply Rmult_le_compat; [apply Rabs_pos|lra|lra|lra]). lra.
Qed.

(** ---- the plain scalar product --------------------------------------------------- *)
Fixpoint weigh (a b hs : list R) : R :=
  match a, b, hs with
  | x :: a', y :: b', k :: hs' => x * y * k + weigh a' b' hs'
  | _, _, _ => 0
  end.
Lemma weigh_close c : forall a b hs, List.length a = List.length b -> List.length hs = List.length a ->
  Forall (fun k => Rabs (k - 1) <= c) hs -> Rabs (weigh a b hs - inner a b) <= c * inner (map Rabs a) (map Rabs b).
Proof.
  induction a as [|x a IH]; intros [|y b] [|k hs] L1 L2 H; try discriminate; cbn [weigh inner map].
  { rewrite Rminus_0_r, Rabs_R0. lra. }
  inversion H as [|? ? Hk Hr]; subst. injection L1 as L1. injection L2 as L2. specialize (IH b hs L1 L2 Hr).
  replace (x * y * k + weigh a b hs - (x * y + inner a b)) with (x * y * (k - 1) + (weigh a b hs - inner a b)) by ring.
  eapply Rle_trans; [apply Rabs_triang|]. rewrite !Rabs_mult.
  pose proof (Rmult_le_compat_l _ _ _ (Rmult_le_pos _ _ (Rabs_pos x) (Rabs_pos y)) Hk). lra.
Qed.

Lemma usual_scaled x : usual x -> fin x = true /\ scaled 200 (val x).
Proof. apply ordinary_scaled. Qed.

Lemma dot_from_ok : forall a b s j, List.length a = List.length b -> (j + List.length a <= 100)%nat ->
  Forall usual a -> Forall moderate b -> fin s = true -> Rabs (val s) <= pow2 (510 + 2 * Z.of_nat j) ->
  fin (dot_from s a b) = true /\
  exists h0 hs, near (List.length a) h0 /\ List.length hs = List.length a /\ Forall (near (S (List.length a))) hs /\
    val (dot_from s a b) = val s * h0 + weigh (map val a) (map val b) hs.
Proof.
  induction a as [|x a IH]; intros [|y b] s j L J Ha Hb Fs Bs; try discriminate.
  { cbn [dot_from List.length map weigh]. split; [exact Fs|]. exists 1, []. split; [apply near_refl|]. split; [reflexivity|].
    split; [constructor|]. ring. }
  injection L as L. inversion Ha as [|? ? Hx Ha']; subst. inversion Hb as [|? ? Hy Hb']; subst.
  apply usual_scaled in Hx. apply moderate_scaled in Hy. destruct Hx as [Fx Sx], Hy as [Fy Sy].
  pose proof (scaled_mul _ _ _ _ Sx Sy) as Sp. change (200 + 300)%Z with 500%Z in Sp.
  pose proof (scaled_abs 500 _ ltac:(lia) Sp) as Ap.
  cbn [List.length] in J. cbn [dot_from].
  destruct (mul_ok x y Fx Fy) as (Fm & d1 & D1 & Em).
  { eapply Rle_trans; [exact Ap|]. apply bpow_le. lia. }
  { destruct Sp as [->|[Q _]]; [now left|right]. eapply Rle_trans; [|exact Q]. apply bpow_le. lia. }
  change (Bmult mode_NE x y) with (fmul x y) in *.
  assert (U1 := u_pos). assert (U2 := u_small).
  assert (Bm : Rabs (val (fmul x y)) <= 2 * pow2 500).
  { rewrite Em, Rabs_mult. pose proof (Rabs_pos (val x * val y)). apply Rabs_le_inv in D1.
    assert (Rabs (1 + d1) <= 2) by (apply Rabs_le; lra). pose proof (Rabs_pos (1 + d1)).
    eapply Rle_trans; [apply Rmult_le_compat; [assumption|assumption|exact Ap|eassumption]|]. lra. }
  set (P := pow2 (510 + 2 * Z.of_nat j)) in *.
  assert (P1 : 2 * pow2 500 <= P).
  { apply Rle_trans with (pow2 501); [change 501%Z with (1 + 500)%Z; rewrite bpow_plus; simpl (pow2 1); lra|].
    apply bpow_le. lia. }
  assert (P2 : pow2 (510 + 2 * Z.of_nat (S j)) = 4 * P).
  { unfold P. replace (510 + 2 * Z.of_nat (S j))%Z with (2 + (510 + 2 * Z.of_nat j))%Z by lia. rewrite bpow_plus. reflexivity. }
  assert (B0 : Rabs (val s + val (fmul x y)) <= 2 * P) by (eapply Rle_trans; [apply Rabs_triang|]; lra).
  destruct (add_ok s (fmul x y) Fs Fm) as (Fa & d2 & D2 & Ea).
  { eapply Rle_trans; [exact B0|]. apply Rle_trans with (4 * P); [pose proof (bpow_ge_0 radix2 (510 + 2 * Z.of_nat j)); fold P in H; lra|].
    rewrite <- P2. apply bpow_le. lia. }
  change (Bplus mode_NE s (fmul x y)) with (fadd s (fmul x y)) in *.
  destruct (IH b (fadd s (fmul x y)) (S j) L ltac:(lia) Ha' Hb' Fa) as (Fr & h0 & hs & N0 & Lh & Nh & Er).
  { rewrite P2, Ea, Rabs_mult. pose proof (Rabs_pos (val s + val (fmul x y))). apply Rabs_le_inv in D2.
    assert (Rabs (1 + d2) <= 2) by (apply Rabs_le; lra). pose proof (Rabs_pos (1 + d2)).
    eapply Rle_trans; [apply Rmult_le_compat; [assumption|assumption|exact B0|eassumption]|]. lra. }
  split; [exact Fr|]. apply near_one in D1. apply near_one in D2.
  exists ((1 + d2) * h0), ((1 + d1) * (1 + d2) * h0 :: hs). cbn [List.length map weigh].
  split; [exact (near_mul 1 _ _ _ D2 N0)|]. split; [now rewrite Lh|]. split.
  - constructor; [exact (near_mul 2 _ _ _ (near_mul 1 1 _ _ D1 D2) N0)|].
    eapply Forall_impl; [|exact Nh]. intros k. apply near_le. lia.
  - rewrite Er, Ea, Em. ring.
Qed.

Lemma plain_good : good_dot dot_plain.
Proof.
  intros a b L K Ha Hb. unfold dot_plain.
  destruct (dot_from_ok a b fzero 0 L ltac:(lia) Ha Hb eq_refl) as (F & h0 & hs & _ & Lh & Nh & E).
  { change (val fzero) with 0. rewrite Rabs_R0. apply bpow_ge_0. }
  split; [exact F|]. rewrite pow_m53. fold u. change (val fzero) with 0 in E. rewrite Rmult_0_l, Rplus_0_l in E.
  match goal with |- Rabs (?v - _) <= _ => replace v with (weigh (map val a) (map val b) hs) by (symmetry; exact E) end.
  destruct a as [|x a].
  { destruct b; [|discriminate]. destruct hs; [|discriminate]. cbn [map inner weigh]. rewrite Rminus_0_r, Rabs_R0. lra. }
  apply weigh_close; [rewrite !map_length; exact L|rewrite map_length; exact Lh|].
  eapply Forall_impl; [|exact Nh]. intros k Nk. apply near_close in Nk.
  - eapply Rle_trans; [exact Nk|]. rewrite (S_INR (List.length (x :: a))). pose proof u_pos.
    assert (1 <= INR (List.length (x :: a))) by (apply (le_INR 1); cbn [List.length]; lia). nra.
  - apply small_n. lia.
Qed.

(** ---- the dictionaries -------------------------------------------------------------- *)
Lemma entry_gives d k x : NoDup (map fst d) -> gives d k x -> val (entry64 d k) = x.
Proof.
  intros N [(v & I & ->)|[O ->]]; unfold entry64.
  - induction d as [|[j w] r IH]; [destruct I|]. cbn [find fst]. inversion N as [|? ? N1 N2]; subst.
    destruct (dblvar_eq_dec j k) as [->|D].
    + destruct I as [E|I]; [injection E as ->; reflexivity|]. elim N1. apply (in_map fst) in I. exact I.
    + apply IH; [exact N2|]. destruct I as [E|I]; [injection E as E1 E2; congruence|exact I].
  - induction d as [|[j w] r IH]; [reflexivity|]. cbn [find fst]. inversion N as [|? ? N1 N2]; subst.
    destruct (dblvar_eq_dec j k) as [->|D]; [elim O; now left|]. apply IH; [exact N2|]. intros I. apply O. now right.
Qed.
Lemma entry_usual d k : Forall (fun q => usual (snd q)) d -> usual (entry64 d k).
Proof.
  intros F. unfold entry64. destruct (find _ d) as [q|] eqn:E.
  - apply find_some in E. destruct E as [I _]. rewrite Forall_forall in F. exact (F q I).
  - split; [reflexivity|left; reflexivity].
Qed.

(** ---- storing -------------------------------------------------------------------------- *)
Lemma put_other ks : forall v t o h w, ~ In w ks -> fg (fst (put_back h ks v t o)) w = fg h w.
Proof.
  induction ks as [|k r IH]; intros [|x v] t o h w N; try reflexivity. cbn [put_back].
  rewrite IH by (intros J; apply N; now right). apply fs_other. intros ->. apply N. now left.
Qed.
Lemma put_int ks : forall v t o h, h_int (N := B64Num) (fst (put_back h ks v t o)) = h_int (N := B64Num) h.
Proof. induction ks as [|k r IH]; intros [|x v] t o h; try reflexivity. cbn [put_back]. rewrite IH. reflexivity. Qed.
Lemma put_at ks : forall v t o h i k x, NoDup ks -> nth_error ks i = Some k -> nth_error v i = Some x ->
  fg (fst (put_back h ks v t o)) k = fadd (fadd x (entry64 t k)) (entry64 o k).
Proof.
  induction ks as [|j r IH]; intros v t o h i k x N Ek Ev; [destruct i; discriminate|]. inversion N as [|? ? N1 N2]; subst.
  destruct v as [|y v]; [destruct i; discriminate|]. cbn [put_back]. destruct i as [|i].
  - injection Ek as ->. injection Ev as ->. rewrite put_other by exact N1. apply fs_same.
  - exact (IH v t o _ i k x N2 Ek Ev).
Qed.
Lemma put_enough ks : forall v t o h, (List.length ks <= List.length v)%nat -> snd (put_back h ks v t o) = true.
Proof.
  induction ks as [|k r IH]; intros [|x v] t o h L; try reflexivity; [cbn in L; lia|]. cbn [put_back]. apply IH. cbn in L. lia.
Qed.
Lemma put_short ks : forall v t o h, (List.length v < List.length ks)%nat -> snd (put_back h ks v t o) = false.
Proof.
  induction ks as [|k r IH]; intros [|x v] t o h L; try reflexivity; [cbn in L; lia|cbn in L; lia|]. cbn [put_back]. apply IH. cbn in L. lia.
Qed.

(** ---- one row ------------------------------------------------------------------------------ *)
Lemma scaled_up e x d : (0 <= e)%Z -> Rabs d <= u -> scaled e x -> scaled (e + 1) (x * (1 + d)).
Proof.
  intros E D S. apply (scaled_near e 1); [simpl; pose proof u_small; lra|exact S|apply near_one, D].
Qed.

Section Row.
  Variable dot : list b64 -> list b64 -> b64.
  Hypothesis G : good_dot dot.
  Variables (h : FHit) (ks : list DblVar) (trans origin : list (DblVar * b64)) (T O : DblVar -> R).
  Hypothesis Small : (List.length ks <= 100)%nat.
  Hypothesis Hks : forall k, In k ks -> usual (fg h k).
  Hypothesis Ht : Forall (fun q => usual (snd q)) trans.
  Hypothesis Ho : Forall (fun q => usual (snd q)) origin.
  Hypothesis ET : forall k, val (entry64 trans k) = T k.
  Hypothesis EO : forall k, val (entry64 origin k) = O k.

  Lemma centred_one k : In k ks -> moderate (fsub (fg h k) (entry64 origin k)) /\
    Rabs (val (fsub (fg h k) (entry64 origin k)) - (of_hit h k - O k)) <= u * (Rabs (of_hit h k) + Rabs (O k)).
  Proof.
    intros I. destruct (usual_scaled _ (Hks k I)) as [Fx Sx]. destruct (usual_scaled _ (entry_usual origin k Ho)) as [Fo So].
    assert (S : scaled 253 (val (fg h k) - val (entry64 origin k))).
    { replace (val (fg h k) - val (entry64 origin k)) with (val (fg h k) + val (Bopp (entry64 origin k)))
        by (rewrite B2R_Bopp; ring).
      apply sum_scaled; [exact Fx|rewrite is_finite_Bopp; exact Fo|exact Sx|]. rewrite B2R_Bopp. unfold scaled. rewrite Rabs_Ropp.
      destruct So as [->|So]; [left; ring|now right]. }
    pose proof (scaled_abs 253 _ ltac:(lia) S) as A.
    destruct (sub_ok _ _ Fx Fo) as (F & d & D & E); [eapply Rle_trans; [exact A|apply bpow_le; lia]|].
    change (Bminus mode_NE (fg h k) (entry64 origin k)) with (fsub (fg h k) (entry64 origin k)) in *. split.
    - apply moderate_scaled. split; [exact F|]. apply (scaled_le 254); [lia|]. rewrite E. apply (scaled_up 253); [lia|exact D|exact S].
    - rewrite E. unfold of_hit. change (h_dbl h k) with (fg h k). rewrite EO.
      replace ((val (fg h k) - O k) * (1 + d) - (val (fg h k) - O k)) with (d * (val (fg h k) - O k)) by ring.
      rewrite Rabs_mult. apply Rmult_le_compat; [apply Rabs_pos|apply Rabs_pos|exact D|].
      unfold Rminus. eapply Rle_trans; [apply Rabs_triang|]. rewrite Rabs_Ropp. lra.
  Qed.

  Lemma row_ok row k : List.length row = List.length ks -> Forall usual row ->
    let z := fadd (fadd (dot row (centred h ks origin)) (entry64 trans k)) (entry64 origin k) in
    fin z = true /\
    Rabs (val z - linear h ks row T O k) <= (4 * INR (List.length ks) + 4) * u * sizes h ks row T O k.
  Proof.
    intros L Hr. cbv zeta. set (v := centred h ks origin).
    assert (Lv : List.length v = List.length ks) by apply map_length.
    assert (Mv : Forall moderate v).
    { apply Forall_forall. intros x I. apply in_map_iff in I. destruct I as (j & <- & J). exact (proj1 (centred_one j J)). }
    destruct (G row v) as [Fy Ey]; [congruence|rewrite L; exact Small|exact Hr|exact Mv|].
    rewrite pow_m53 in Ey. fold u in Ey. rewrite L in Ey.
    set (y := dot row v) in *. set (r := map val row) in *. set (n := INR (List.length ks)) in *.
    set (V := fun j => val (fsub (fg h j) (entry64 origin j))).
    assert (Ev : map val v = map V ks) by (unfold v, centred; rewrite map_map; reflexivity).
    set (b := fun j => Rabs (of_hit h j) + Rabs (O j)). set (B := inner (map Rabs r) (map b ks)).
    assert (U1 := u_pos). assert (U2 := u_small).
    assert (U3 : n * u <= / 1000).
    { assert (n <= 100). { unfold n. replace 100 with (INR 100) by (simpl; lra). apply le_INR. exact Small. }
      assert (u <= / 100000) by (unfold u; simpl; lra). pose proof (pos_INR (List.length ks)). fold n in H1.
      apply Rle_trans with (100 * / 100000); [apply Rmult_le_compat; lra|lra]. }
    assert (n0 : 0 <= n) by apply pos_INR.
    assert (b0 : forall j, 0 <= b j) by (intros j; unfold b; pose proof (Rabs_pos (of_hit h j)); pose proof (Rabs_pos (O j)); lra).
    assert (B0 : 0 <= B) by (apply inner_pos; intros; apply b0).
    (* the vector of rounded differences *)
    assert (E1 : Rabs (inner r (map V ks) - inner r (map (fun j => of_hit h j - O j) ks)) <= u * B).
    { apply (inner_close V (fun j => of_hit h j - O j) b u). intros j J. exact (proj2 (centred_one j J)). }
    assert (E2 : inner (map Rabs r) (map Rabs (map val v)) <= (1 + u) * B).
    { rewrite Ev, map_map. unfold B. rewrite <- inner_scale. apply inner_le. intros j J.
      pose proof (proj2 (centred_one j J)) as C. fold (V j) in C. fold (b j) in C.
      replace (V j) with ((V j - (of_hit h j - O j)) + (of_hit h j - O j)) by ring.
      eapply Rle_trans; [apply Rabs_triang|]. assert (Rabs (of_hit h j - O j) <= b j).
      { unfold b, Rminus. eapply Rle_trans; [apply Rabs_triang|]. rewrite Rabs_Ropp. lra. } lra. }
    match type of Ey with context [map ?f v] => change (map f v) with (map val v) in Ey end. rewrite Ev in Ey at 1.
    set (X := inner r (map (fun j => of_hit h j - O j) ks)) in *.
    assert (E3 : Rabs (val y - X) <= (4 * n * (1 + u) + 1) * u * B).
    { replace (val y - X) with ((val y - inner r (map V ks)) + (inner r (map V ks) - X)) by ring.
      eapply Rle_trans; [apply Rabs_triang|].
      assert (4 * n * u * inner (map Rabs r) (map Rabs (map val v)) <= 4 * n * u * ((1 + u) * B)).
      { apply Rmult_le_compat_l; [|exact E2]. apply Rmult_le_pos; lra. }
      lra. }
    assert (X0 : Rabs X <= B).
    { unfold X. eapply Rle_trans; [apply inner_abs|]. rewrite map_map. apply inner_le. intros j _.
      unfold b, Rminus. eapply Rle_trans; [apply Rabs_triang|]. rewrite Rabs_Ropp. lra. }
    assert (nuB : 0 <= n * u * B) by (apply Rmult_le_pos; [apply Rmult_le_pos; lra|exact B0]).
    assert (uB : 0 <= u * B) by (apply Rmult_le_pos; lra).
    assert (uB' : u * B <= / 1000 * B) by (apply Rmult_le_compat_r; lra).
    assert (nuB' : n * u * B <= / 1000 * B) by (apply Rmult_le_compat_r; lra).
    assert (nuuB : n * u * B * u <= / 1000 * (u * B)).
    { replace (n * u * B * u) with (n * u * (u * B)) by ring. apply Rmult_le_compat_r; lra. }
    assert (E4 : Rabs (val y - X) <= (4 * n + 1.004) * (u * B)).
    { eapply Rle_trans; [exact E3|]. replace ((4 * n * (1 + u) + 1) * u * B) with (4 * (n * u * B) + 4 * (n * u * B * u) + u * B) by ring. lra. }
    assert (Y0 : Rabs (val y) <= 1.01 * B).
    { replace (val y) with ((val y - X) + X) by ring. eapply Rle_trans; [apply Rabs_triang|]. lra. }
    (* everything is below the overflow threshold *)
    assert (Bsmall : B <= pow2 410).
    { unfold B. eapply Rle_trans; [apply (inner_bound b (pow2 200) (2 * pow2 200))|].
      - pose proof (bpow_ge_0 radix2 200). lra.
      - apply Forall_forall. intros x I. unfold r in I. apply in_map_iff in I. destruct I as (q & <- & I).
        rewrite Forall_forall in Hr. destruct (usual_scaled _ (Hr q I)) as [_ S]. exact (scaled_abs 200 _ ltac:(lia) S).
      - intros j J. split; [apply b0|]. unfold b. destruct (usual_scaled _ (Hks j J)) as [_ S1].
        destruct (usual_scaled _ (entry_usual origin j Ho)) as [_ S2]. rewrite EO in S2.
        apply scaled_abs in S1; [|lia]. apply scaled_abs in S2; [|lia]. change (val (fg h j)) with (of_hit h j) in S1. lra.
      - replace (List.length r) with (List.length ks) by (unfold r; rewrite map_length; symmetry; exact L). fold n. replace (n * (pow2 200 * (2 * pow2 200))) with (2 * n * pow2 400) by (change 400%Z with (200 + 200)%Z; rewrite bpow_plus; ring).
        change 410%Z with (10 + 400)%Z. rewrite bpow_plus. apply Rmult_le_compat_r; [apply bpow_ge_0|].
        assert (n <= 100). { unfold n. replace 100 with (INR 100) by (simpl; lra). apply le_INR. exact Small. }
        simpl (pow2 10). lra. }
    destruct (usual_scaled _ (entry_usual trans k Ht)) as [Ft St]. destruct (usual_scaled _ (entry_usual origin k Ho)) as [Fo So].
    apply scaled_abs in St; [|lia]. apply scaled_abs in So; [|lia].
    assert (P : pow2 200 <= pow2 410) by (apply bpow_le; lia).
    assert (Q : 16 * pow2 410 <= pow2 1000).
    { apply Rle_trans with (pow2 414); [change 414%Z with (4 + 410)%Z; rewrite bpow_plus; simpl (pow2 4); lra|apply bpow_le; lia]. }
    assert (Y1 : Rabs (val y + val (entry64 trans k)) <= Rabs (val y) + Rabs (T k)) by (rewrite <- ET; apply Rabs_triang).
    destruct (add_ok y (entry64 trans k) Fy Ft) as (Fa & d & D & Ea); [rewrite ET in *; lra|].
    change (Bplus mode_NE y (entry64 trans k)) with (fadd y (entry64 trans k)) in *.
    set (w := fadd y (entry64 trans k)) in *. rewrite ET in *. rewrite EO in *.
    set (S1 := Rabs (val y) + Rabs (T k)) in *. assert (S10 : 0 <= S1) by (unfold S1; pose proof (Rabs_pos (val y)); pose proof (Rabs_pos (T k)); lra).
    assert (W : Rabs (val w - (val y + T k)) <= u * S1).
    { rewrite Ea. replace ((val y + T k) * (1 + d) - (val y + T k)) with (d * (val y + T k)) by ring. rewrite Rabs_mult.
      apply Rmult_le_compat; [apply Rabs_pos|apply Rabs_pos|exact D|exact Y1]. }
    assert (uS : u * S1 <= / 1000 * S1) by (apply Rmult_le_compat_r; lra).
    assert (W0 : Rabs (val w) <= S1 + u * S1).
    { replace (val w) with ((val w - (val y + T k)) + (val y + T k)) by ring. eapply Rle_trans; [apply Rabs_triang|]. lra. }
    assert (Z0 : Rabs (val w + O k) <= Rabs (val w) + Rabs (O k)) by apply Rabs_triang.
    destruct (add_ok w (entry64 origin k) Fa Fo) as (Fz & e & D2 & Ez); [rewrite EO; unfold S1 in *; lra|].
    rewrite EO in Ez. split; [exact Fz|].
    match goal with |- Rabs (?v - _) <= _ => replace v with ((val w + O k) * (1 + e)) by (symmetry; exact Ez) end.
    unfold linear, sizes. fold r. fold X. fold b. change (inner (map Rabs r) (map b ks)) with B.
    replace ((val w + O k) * (1 + e) - (X + T k + O k))
      with (e * (val w + O k) + (val w - (val y + T k)) + (val y - X)) by ring.
    eapply Rle_trans; [apply Rabs_triang|]. eapply Rle_trans; [apply Rplus_le_compat_r, Rabs_triang|]. rewrite Rabs_mult.
    assert (H1 : Rabs e * Rabs (val w + O k) <= u * (S1 + u * S1 + Rabs (O k))).
    { apply Rmult_le_compat; [apply Rabs_pos|apply Rabs_pos|exact D2|lra]. }
    assert (H2 : u * (u * S1) <= / 1000 * (u * S1)).
    { apply Rmult_le_compat_r; [apply Rmult_le_pos; lra|lra]. }
    assert (H3 : u * S1 <= u * (1.01 * B) + u * Rabs (T k)) by (unfold S1; rewrite <- Rmult_plus_distr_l; apply Rmult_le_compat_l; lra).
    pose proof (Rabs_pos (T k)) as T0. pose proof (Rabs_pos (O k)) as O0.
    assert (H4 : 0 <= u * Rabs (T k)) by (apply Rmult_le_pos; lra).
    assert (H5 : 0 <= u * Rabs (O k)) by (apply Rmult_le_pos; lra).
    assert (H6 : 0 <= n * (u * Rabs (T k))) by (apply Rmult_le_pos; lra).
    assert (H7 : 0 <= n * (u * Rabs (O k))) by (apply Rmult_le_pos; lra).
    replace ((4 * n + 4) * u * (B + Rabs (T k) + Rabs (O k)))
      with (4 * (n * u * B) + 4 * (u * B) + 4 * (n * (u * Rabs (T k))) + 4 * (n * (u * Rabs (O k))) + 4 * (u * Rabs (T k)) + 4 * (u * Rabs (O k))) by ring.
    lra.
  Qed.
End Row.
