(** C92: the mass shell condition and Hit.check in double precision. *)
From Coq Require Import Reals ZArith Bool String List Lia Lra Psatz.
From Flocq Require Import Core BinarySingleNaN.
From Verif Require Import Num HitcoreModel TableModel FloatModel MomentSpec FloatArith Bin64Model Bin64Spec Bin64Proofs
  Shell64Model Shell64Spec Shell64Proofs.
Import ListNotations.
Open Scope R_scope.

Lemma pow_m53 : / 2 ^ 53 = u.
Proof. rewrite pow_inv64. reflexivity. Qed.

(** Some library is accurate in the sense used here. *)
Theorem C92_library_ex : accurate plain.
Proof. exact plain_accurate. Qed.

(** mass_shell_condition('energy') *)
Theorem C92_energy L h : accurate L -> (forall v, In v [Vpx; Vpy; Vpz; Vmass] -> moderate (h_dbl (N := B64Num) h v)) ->
  exists h', mass_shell64 L h "energy" = (h', ShTrue) /\ others_kept [Venergy] h h' /\ 0 <= of_hit h' Venergy /\
    Rabs (esq h' - (psq h' + msq h')) <= 40 * / 2 ^ 53 * (psq h' + msq h').
Proof.
  intros A M. destruct (energy_like L A h) as (e & E & F & K).
  { intros v I. apply moderate_scaled. exact (M v I). }
  exists (fs h Venergy e). split; [exact E|]. split; [apply kept_one|].
  change (of_hit (fs h Venergy e) Venergy) with (val e).
  change (esq (fs h Venergy e)) with (val e * val e). change (psq (fs h Venergy e)) with (psq h).
  change (msq (fs h Venergy e)) with (msq h).
  assert (P : 0 <= msq h + psq h).
  { unfold msq, psq. pose proof (sq_nonneg (of_hit h Vmass)). pose proof (sq_nonneg (of_hit h Vpx)).
    pose proof (sq_nonneg (of_hit h Vpy)). pose proof (sq_nonneg (of_hit h Vpz)). lra. }
  split; [apply (like_nonneg 9 _ _ (sqrt_pos _) K)|].
  apply like_sq in K. rewrite sqrt_sqrt in K by exact P. apply like_error in K; [|apply small_n; lia].
  cbn [Nat.add] in K. replace (INR 18) with 18 in K by (rewrite INR_IZR_INZ; reflexivity).
  rewrite (Rabs_right (msq h + psq h)) in K by lra. rewrite pow_m53. pose proof u_pos.
  replace (psq h + msq h) with (msq h + psq h) by ring. nra.
Qed.

(** A muon with momentum (-3, 4, 200) and energy 7. *)
Definition ex_hit : FHit :=
  mkHit (N := B64Num) (fun v => match v with
    | Vpx => b64_of_Z (-3) | Vpy => b64_of_Z 4 | Vpz => b64_of_Z 200 | Venergy => b64_of_Z 300
    | Vmass => fdiv (b64_of_Z 1056583668) (b64_of_Z 10000000) | _ => fzero end)
    (fun v => match v with Ipid => 13%Z | _ => 0%Z end).

Lemma moderate_Z z : (Z.abs z <= 2 ^ 53)%Z -> moderate (b64_of_Z z).
Proof.
  intros H. destruct (ofZ_exact z H) as [F V]. apply moderate_scaled. split; [exact F|]. rewrite V.
  destruct (Z.eq_dec z 0) as [-> |N]; [now left|right]. split.
  - apply Rle_trans with 1; [change 1 with (pow2 0); apply bpow_le; lia|]. rewrite <- abs_IZR. apply IZR_le. lia.
  - apply Rle_trans with (pow2 53); [now apply int_small|]. apply bpow_le. lia.
Qed.

Lemma table_quotient a b : (0 <= a <= 2 ^ 40)%Z -> (1 <= b <= 2 ^ 40)%Z ->
  fin (fdiv (b64_of_Z a) (b64_of_Z b)) = true /\ like 1 (IZR a / IZR b) (val (fdiv (b64_of_Z a) (b64_of_Z b))) /\ scaled 80 (IZR a / IZR b).
Proof.
  intros Ha Hb. destruct (ofZ_exact a) as [Fa Va]; [lia|]. destruct (ofZ_exact b) as [Fb Vb]; [lia|].
  assert (S : forall z, (0 <= z <= 2 ^ 40)%Z -> scaled 40 (IZR z)).
  { intros z [Z0 Z1]. destruct (Z.eq_dec z 0) as [-> |N]; [now left|right]. rewrite Rabs_right by (apply Rle_ge, IZR_le; lia). split.
    - apply Rle_trans with 1; [change 1 with (pow2 0); apply bpow_le; lia|]. apply IZR_le. lia.
    - change (pow2 40) with (IZR (2 ^ 40)). now apply IZR_le. }
  destruct (div_like (b64_of_Z a) (b64_of_Z b) 0 0 (IZR a) (IZR b) 40 40 Fa) as (F & K & SS); try lia.
  - rewrite Va. apply like_refl.
  - rewrite Vb. apply like_refl.
  - apply not_0_IZR. lia.
  - apply S. lia.
  - apply S. lia.
  - split; [exact F|]. split; [exact K|exact SS].
Qed.

Example C92_hit_ex : moderate_hit ex_hit /\ msq ex_hit <= esq ex_hit /\ psq ex_hit <> 0.
Proof.
  destruct (table_quotient 1056583668 10000000) as (F & K & S); [lia|lia|].
  assert (V : forall z, (Z.abs z <= 2 ^ 53)%Z -> value (b64_of_Z z) = IZR z) by (intros; now apply ofZ_exact).
  split; [|split].
  - intros w [<-|[<-|[<-|[<-|[<-|[]]]]]]; cbn [h_dbl ex_hit]; try (apply moderate_Z; lia).
    apply moderate_scaled. split; [exact F|]. apply (scaled_le (80 + 1)); [lia|].
    apply (like_scaled 1 80 (IZR 1056583668 / IZR 10000000)); [apply small_n; lia|exact K|exact S].
  - unfold msq, esq, of_hit. cbn [h_dbl ex_hit]. rewrite V by lia.
    apply like_error in K; [|apply small_n; lia]. pose proof u_small. pose proof u_pos. simpl INR in K.
    rewrite (Rabs_right (IZR 1056583668 / IZR 10000000)) in K by lra. apply Rabs_le_inv in K.
    set (x := val (fdiv (b64_of_Z 1056583668) (b64_of_Z 10000000))) in *.
    assert (0 <= x <= 107) by lra. change (x * x <= 300 * 300). nra.
  - unfold psq, of_hit. cbn [h_dbl ex_hit]. rewrite !V by lia. lra.
Qed.

(** The branches 'px', 'py' and 'pz': the component that is set and the two others. *)
Definition branches : list (string * DblVar * DblVar * DblVar) :=
  [("px"%string, Vpx, Vpy, Vpz); ("py"%string, Vpy, Vpx, Vpz); ("pz"%string, Vpz, Vpx, Vpy)].

Theorem C92_component L h k v a b : accurate L -> In (k, v, a, b) branches ->
  (forall w, In w [a; b; Venergy; Vmass] -> moderate (h_dbl (N := B64Num) h w)) ->
  let rest := esq h - msq h - of_hit h a * of_hit h a - of_hit h b * of_hit h b in
  let err := / 2 ^ 53 * (esq h + msq h + of_hit h a * of_hit h a + of_hit h b * of_hit h b) in
  exists h' r, mass_shell64 L h k = (h', r) /\ others_kept [v] h h' /\
    ((r = ShTrue /\ 0 < of_hit h' v /\ Rabs (of_hit h' v * of_hit h' v - rest) <= 40 * err) \/
     (r = ShFalse /\ of_hit h' v = 0)) /\
    (11 / 10 ^ 7 + 6 * err < rest -> r = ShTrue) /\ (rest < 9 / 10 ^ 7 - 6 * err -> r = ShFalse).
Proof.
  intros A I M. cbv zeta. rewrite pow_m53.
  assert (R : forall e m x y, (forall w, In w [e; m; x; y] -> moderate w) ->
    let c := fsub (fsub (fsub (fmul e e) (fmul m m)) (fmul x x)) (fmul y y) in
    let W := val e * val e + val m * val m + val x * val x + val y * val y in
    let V := val e * val e - val m * val m - val x * val x - val y * val y in
    exists h' r, component L h v c = (h', r) /\ others_kept [v] h h' /\
      ((r = ShTrue /\ 0 < of_hit h' v /\ Rabs (of_hit h' v * of_hit h' v - V) <= 40 * (u * W)) \/
       (r = ShFalse /\ of_hit h' v = 0)) /\
      (11 / 10 ^ 7 + 6 * (u * W) < V -> r = ShTrue) /\ (V < 9 / 10 ^ 7 - 6 * (u * W) -> r = ShFalse)).
  { intros e m x y Mw. cbv zeta. destruct (residual_ok e m x y) as (F & E & W1 & W0 & V0).
    { intros w Iw. apply moderate_scaled. now apply Mw. }
    destruct (component_ok L A h v _ _ _ F E W1 W0 V0) as (c & r & Ec & Fc & C).
    exists (fs h v c), r. split; [exact Ec|]. split; [apply kept_one|].
    assert (Vc : of_hit (fs h v c) v = val c) by (unfold of_hit; change (val (fg (fs h v c) v) = val c); now rewrite fs_same).
    rewrite Vc. destruct C as [(-> & C1 & C2 & C3)|(-> & C1 & C2)].
    - split; [left; split; [reflexivity|split; [exact C1|lra]]|]. split; [reflexivity|]. intros Q. lra.
    - split; [right; split; [reflexivity|exact C1]|]. split; [intros Q; lra|reflexivity]. }
  assert (Mw : forall w, In w [fg h Venergy; fg h Vmass; fg h a; fg h b] -> moderate w).
  { intros w [<-|[<-|[<-|[<-|[]]]]]; apply M; cbn; tauto. }
  specialize (R (fg h Venergy) (fg h Vmass) (fg h a) (fg h b) Mw). cbv zeta in R.
  unfold branches in I. destruct I as [I|[I|[I|[]]]]; injection I as <- <- <- <-; exact R.
Qed.

(** With the muon: pz is set, and off by at most as much; without the energy for it, pz is zero. *)
Example C92_component_ex :
  In ("pz"%string, Vpz, Vpx, Vpy) branches /\
  snd (mass_shell64 plain ex_hit "pz") = ShTrue /\
  snd (mass_shell64 plain (fs ex_hit Venergy (b64_of_Z 7)) "pz") = ShFalse.
Proof. split; [cbn; tauto|]. split; vm_compute; reflexivity. Qed.

(** mass_shell_condition('p') *)
Theorem C92_p L h : accurate L -> moderate_hit h -> msq h <= esq h ->
  exists h', mass_shell64 L h "p" = (h', ShTrue) /\ others_kept [Vpx; Vpy; Vpz] h h' /\
    Rabs (psq h' - (esq h - msq h)) <= 100 * / 2 ^ 53 * (esq h - msq h) /\
    (psq h <> 0 -> exists s, 0 <= s /\ forall v, In v [Vpx; Vpy; Vpz] ->
       Rabs (of_hit h' v - s * of_hit h v) <= 2 * / 2 ^ 53 * (s * Rabs (of_hit h v))) /\
    (psq h = 0 -> of_hit h' Vpx = 0 /\ of_hit h' Vpy = 0 /\ 0 <= of_hit h' Vpz).
Proof.
  intros A M H. destruct (p_ok L A h M H) as (s & h' & E & Ps & Ls & O & C).
  assert (M0 : forall v, In v [Vpx; Vpy; Vpz] -> fin (fg h v) = true /\ scaled 300 (val (fg h v))).
  { intros v I. apply (mod_fs h v M). cbn in *; tauto. }
  destruct (start_ok h M0) as [_ P1]. rewrite pow_m53.
  exists h'. split; [exact E|]. split; [exact O|]. split; [|split].
  - assert (X : 0 <= esq h - msq h) by lra.
    assert (Sq : like 44 (esq h - msq h) (psq h')).
    { assert (Q : forall v, In v [Vpx; Vpy; Vpz] ->
        like 44 ((of_hit (start h) v * of_hit (start h) v) * ((esq h - msq h) / psq (start h))) (of_hit h' v * of_hit h' v)).
      { intros v I. destruct (C v I) as [_ K]. pose proof (like_sq _ _ _ K) as K2. pose proof (like_sq _ _ _ Ls) as L2.
        replace (sqrt (esq h - msq h) / sqrt (psq (start h)) * (sqrt (esq h - msq h) / sqrt (psq (start h))))
          with ((esq h - msq h) / psq (start h)) in L2.
        2:{ transitivity ((sqrt (esq h - msq h) * sqrt (esq h - msq h)) / (sqrt (psq (start h)) * sqrt (psq (start h)))).
            - rewrite !sqrt_sqrt by lra. reflexivity.
            - field. pose proof (sqrt_lt_R0 _ P1). lra. }
        apply like_le with (42 + 2)%nat; [lia|].
        apply like_trans with ((of_hit (start h) v * of_hit (start h) v) * (val s * val s)).
        - apply (like_mul 0 42); [apply like_refl|exact L2].
        - replace (of_hit (start h) v * of_hit (start h) v * (val s * val s))
            with (val (fg (start h) v) * val s * (val (fg (start h) v) * val s)) by (unfold of_hit, fg; ring). exact K2. }
      assert (Pq : 0 <= (esq h - msq h) / psq (start h)).
      { apply Rmult_le_pos; [exact X|]. left. now apply Rinv_0_lt_compat. }
      pose proof (fun v => Rmult_le_pos _ _ (sq_nonneg (of_hit (start h) v)) Pq) as N.
      pose proof (like_sum 44 _ _ _ _ (N Vpx) (N Vpy) (Q Vpx ltac:(now left)) (Q Vpy ltac:(now right; left))) as S1.
      pose proof (like_sum 44 _ _ _ _ (Rplus_le_le_0_compat _ _ (N Vpx) (N Vpy)) (N Vpz) S1 (Q Vpz ltac:(now right; right; left))) as S2.
      replace (esq h - msq h) with (of_hit (start h) Vpx * of_hit (start h) Vpx * ((esq h - msq h) / psq (start h)) +
        of_hit (start h) Vpy * of_hit (start h) Vpy * ((esq h - msq h) / psq (start h)) +
        of_hit (start h) Vpz * of_hit (start h) Vpz * ((esq h - msq h) / psq (start h))) at 1; [exact S2|].
      rewrite <- !Rmult_plus_distr_r. fold (psq (start h)). field. lra. }
    apply like_error in Sq; [|apply small_n; lia].
    replace (INR 44) with 44 in Sq by (rewrite INR_IZR_INZ; reflexivity).
    rewrite (Rabs_right (esq h - msq h)) in Sq by lra. pose proof u_pos. nra.
  - intros N. exists (val s). split; [exact Ps|]. intros v I. destruct (C v I) as [_ K].
    assert (Es : start h = h) by (unfold start; destruct (Req_EM_T (psq h) 0); [contradiction|reflexivity]).
    rewrite Es in K. apply like_error in K; [|apply small_n; lia]. simpl INR in K.
    change (val (fg h v)) with (of_hit h v) in K. change (val (fg h' v)) with (of_hit h' v) in K.
    rewrite Rabs_mult, (Rabs_right (val s)) in K by lra. rewrite (Rmult_comm (val s)). lra.
  - intros Z. destruct (psq_zero h Z) as (X & Y & _).
    assert (Es : start h = fs h Vpz fone) by (unfold start; destruct (Req_EM_T (psq h) 0); [reflexivity|contradiction]).
    rewrite Es in C.
    destruct (C Vpx) as [_ (k & _ & Ek)]; [now left|]. destruct (C Vpy) as [_ (l & _ & El)]; [now right; left|].
    destruct (C Vpz) as [_ Kz]; [now right; right; left|].
    unfold of_hit in *. change (h_dbl h' Vpx) with (fg h' Vpx). change (h_dbl h' Vpy) with (fg h' Vpy). change (h_dbl h' Vpz) with (fg h' Vpz).
    change (fg (fs h Vpz fone) Vpx) with (h_dbl h Vpx) in Ek. change (fg (fs h Vpz fone) Vpy) with (h_dbl h Vpy) in El.
    change (fg (fs h Vpz fone) Vpz) with fone in Kz. rewrite (proj2 one_val) in Kz.
    split; [rewrite Ek, X; ring|]. split; [rewrite El, Y; ring|]. apply (like_nonneg 1 _ _) in Kz; [exact Kz|lra].
Qed.

(** With less energy than mass it raises IndexError and leaves -1 in px. *)
Theorem C92_p_below_refuted L h : accurate L -> moderate_hit h -> esq h < msq h ->
  exists h', mass_shell64 L h "p" = (h', ShErr FIndexError) /\ of_hit h' Vpx = -1 /\ others_kept [Vpx; Vpz] h h' /\
    (psq h <> 0 -> of_hit h' Vpz = of_hit h Vpz).
Proof.
  intros A M H. destruct (p_fails L A h M H) as (h' & E & X & O & Z). exists h'. split; [exact E|]. split; [exact X|]. split; [exact O|].
  intros N. unfold of_hit. change (h_dbl h' Vpz) with (fg h' Vpz). rewrite Z. unfold start.
  destruct (Req_EM_T (psq h) 0); [contradiction|reflexivity].
Qed.

Example C92_p_ex : snd (mass_shell64 plain ex_hit "p") = ShTrue /\
  snd (mass_shell64 plain (fs ex_hit Venergy (b64_of_Z 7)) "p") = ShErr FIndexError.
Proof. split; vm_compute; reflexivity. Qed.

(** ---- check ---- *)
Lemma pid_masses pid :
  match pid_mass mass_table pid, zassoc pdg_pid_to_mass pid with
  | None, None => True
  | Some x, Some m => fin x = true /\ Rabs (val x - m) <= / 10 ^ 9 /\ 0 <= m <= 10000
  | _, _ => False
  end.
Proof.
  assert (G : forall t s, Forall2 (fun a b => fst a = fst b /\ (0 <= fst (snd a) <= 2 ^ 40)%Z /\ (1 <= snd (snd a) <= 2 ^ 40)%Z /\
      snd b = IZR (fst (snd a)) / IZR (snd (snd a)) /\ snd b <= 10000) t s ->
    match pid_mass t pid, zassoc s pid with
    | None, None => True
    | Some x, Some m => fin x = true /\ Rabs (val x - m) <= / 10 ^ 9 /\ 0 <= m <= 10000
    | _, _ => False
    end).
  { intros t s H. induction H as [|[k [a b]] [k' m] t s (E & Ha & Hb & Em & B) H IH]; [exact I|].
    cbn [fst snd] in *. subst k'. cbn [pid_mass zassoc]. destruct (Z.eqb k pid); [|exact IH].
    destruct (table_quotient a b Ha Hb) as (F & K & _). split; [exact F|]. rewrite <- Em in K.
    assert (P : 0 <= m).
    { rewrite Em. apply Rmult_le_pos; [apply IZR_le; lia|]. left. apply Rinv_0_lt_compat. apply IZR_lt. lia. }
    apply like_error in K; [|apply small_n; lia]. simpl INR in K. rewrite (Rabs_right m) in K by lra.
    split; [|lra]. eapply Rle_trans; [exact K|]. pose proof u_pos.
    apply Rle_trans with (2 * 1 * u * 10000); [apply Rmult_le_compat_l; lra|]. unfold u. simpl. lra. }
  apply G. unfold mass_table, pdg_pid_to_mass.
  repeat (constructor; [cbn [fst snd]; repeat split; try lia; lra|]). constructor.
Qed.

Lemma milli_val : fin milli = true /\ 999 / 10 ^ 6 < val milli < 1001 / 10 ^ 6.
Proof.
  destruct (ofZ_exact 1000) as [F V]; [lia|]. destruct one_val as [F1 V1].
  destruct (div_ok fone (b64_of_Z 1000) F1) as (F2 & d & Hd & E).
  - rewrite V. lra.
  - rewrite V, V1. rewrite Rabs_right by lra. apply Rle_trans with 1; [lra|]. change 1 with (pow2 0). apply bpow_le. lia.
  - right. rewrite V, V1. rewrite Rabs_right by lra. apply Rle_trans with (pow2 (-53)); [apply bpow_le; lia|]. simpl. lra.
  - split; [exact F2|]. change milli with (fdiv fone (b64_of_Z 1000)). rewrite E, V, V1.
    apply Rabs_le_inv in Hd. assert (u <= / 10 ^ 6) by (unfold u; simpl; lra). pose proof u_pos. lra.
Qed.

(** The pid is one that check knows, or one of the bad pids, and the mass is that of the pid. *)
Definition pid_right (bad : list Z) (pid : Z) (mass : R) : Prop :=
  match zassoc pdg_pid_to_mass (Z.abs pid) with
  | Some m => Rabs (mass - m) <= 9 / 10 ^ 4
  | None => In pid bad
  end.
Definition pid_wrong (bad : list Z) (pid : Z) (mass : R) : Prop :=
  match zassoc pdg_pid_to_mass (Z.abs pid) with
  | Some m => 11 / 10 ^ 4 <= Rabs (mass - m)
  | None => ~ In pid bad
  end.

Lemma check_pid L bad h : fin (fg h Vmass) = true -> scaled 300 (val (fg h Vmass)) ->
  (pid_right bad (h_int (N := B64Num) h Ipid) (of_hit h Vmass) -> check L bad h = shell_test L h) /\
  (pid_wrong bad (h_int (N := B64Num) h Ipid) (of_hit h Vmass) -> check L bad h = inr false).
Proof.
  intros Fm Sm. unfold pid_right, pid_wrong, check. cbv zeta. set (pid := h_int h Ipid).
  pose proof (pid_masses (Z.abs pid)) as T.
  destruct (pid_mass mass_table (Z.abs pid)) as [x|] eqn:Ex; destruct (zassoc pdg_pid_to_mass (Z.abs pid)) as [m|] eqn:Em; try contradiction.
  - destruct T as (Fx & Vx & Bm). apply Rabs_le_inv in Vx. destruct milli_val as [Fk Vk].
    assert (Sx : Rabs (val (fg h Vmass)) <= pow2 300) by (apply scaled_abs; [lia|exact Sm]).
    assert (Big : 20000 <= pow2 300). { apply Rle_trans with (pow2 15); [simpl; lra|apply bpow_le; lia]. }
    destruct (sub_ok (fg h Vmass) x Fm Fx) as (Fs & d & Hd & Es).
    { apply Rle_trans with (pow2 301); [|apply bpow_le; lia]. change 301%Z with (300 + 1)%Z. rewrite bpow_plus. simpl (pow2 1).
      apply Rabs_le_inv in Sx. apply Rabs_le. lra. }
    change (Bminus mode_NE (fg h Vmass) x) with (fsub (fg h Vmass) x) in Fs, Es.
    set (y := fsub (fg h Vmass) x) in *.
    assert (Fa : fin (fabs y) = true) by (destruct y; try reflexivity; exact Fs).
    rewrite (flt_finite milli (fabs y) Fk Fa). rewrite B2R_Babs, Es, Rabs_mult.
    change (of_hit h Vmass) with (val (fg h Vmass)). set (a := val (fg h Vmass)) in *.
    assert (U : u <= / 10 ^ 6) by (unfold u; simpl; lra). apply Rabs_le_inv in Hd.
    rewrite (Rabs_right (1 + d)) by lra.
    assert (T : Rabs (a - m) - / 10 ^ 9 <= Rabs (a - val x) <= Rabs (a - m) + / 10 ^ 9).
    { unfold Rabs. destruct (Rcase_abs (a - m)), (Rcase_abs (a - val x)); lra. }
    pose proof (Rabs_pos (a - val x)).
    split; intros Q.
    + replace (rlt (val milli) (Rabs (a - val x) * (1 + d))) with false; [reflexivity|].
      symmetry. apply rlt_false. apply Rle_trans with (91 / 10 ^ 5 * (1 + / 10 ^ 6)); [|lra].
      apply Rmult_le_compat; lra.
    + replace (rlt (val milli) (Rabs (a - val x) * (1 + d))) with true; [reflexivity|].
      symmetry. apply rlt_true. apply Rlt_le_trans with (1099 / 10 ^ 6 * (1 - / 10 ^ 6)); [lra|].
      apply Rmult_le_compat; lra.
  - assert (Bad : existsb (Z.eqb pid) bad = true <-> In pid bad).
    { rewrite existsb_exists. split; [intros (y & Y & E); apply Z.eqb_eq in E; now subst|intros Y; exists pid; split; [exact Y|apply Z.eqb_refl]]. }
    assert (N0 : (pid =? 0)%Z = false).
    { apply Z.eqb_neq. intros Z0. rewrite Z0 in Ex. discriminate Ex. }
    split; intros Q.
    + apply Bad in Q. now rewrite Q.
    + destruct (existsb (Z.eqb pid) bad) eqn:Eb; [exfalso; apply Q; now apply Bad|]. now rewrite N0.
Qed.

(** Nearly the same integer. *)
Definition rounds_to (k : Z) (margin r : R) : Prop := Rabs (r - IZR k) + margin < / 2.

Theorem C92_check L bad h : accurate L -> moderate_hit h ->
  (pid_wrong bad (h_int (N := B64Num) h Ipid) (of_hit h Vmass) -> check L bad h = inr false) /\
  (pid_right bad (h_int (N := B64Num) h Ipid) (of_hit h Vmass) ->
   exists b, check L bad h = inr b /\
     (b = true -> Rabs (psq h + msq h - esq h) <= 1 + 60 * / 2 ^ 53 * (psq h + msq h + esq h)) /\
     (forall k, rounds_to k (60 * / 2 ^ 53 * (psq h + msq h)) (psq h + msq h) ->
        rounds_to k (60 * / 2 ^ 53 * esq h) (esq h) -> b = true)).
Proof.
  intros A M. destruct (mod_fs h Vmass M) as [Fm Sm]; [cbn; tauto|]. destruct (check_pid L bad h Fm Sm) as [C1 C2].
  split; [exact C2|]. intros Q. rewrite (C1 Q). rewrite pow_m53.
  destruct (shell_test_ok L A h) as (a & b & E & Ha & Hb).
  { intros v I. apply (mod_fs h v M). cbn in *; tauto. }
  { apply (mod_fs h Venergy M). cbn; tauto. }
  { apply (scaled_le 300); [lia|]. apply (mod_fs h Venergy M). cbn; tauto. }
  exists (Z.eqb a b). split; [exact E|]. pose proof u_pos.
  assert (P : 0 <= esq h) by apply sq_nonneg.
  assert (Q0 : 0 <= u * esq h) by (apply Rmult_le_pos; lra). apply Rabs_le_inv in Ha, Hb. split.
  - intros K. apply Z.eqb_eq in K. subst b. apply Rabs_le. lra.
  - intros k Ka Kb. apply Z.eqb_eq. unfold rounds_to in Ka, Kb. assert (Na : a = k).
    { apply Z.le_antisymm; apply Z.lt_succ_r; apply lt_IZR; unfold Z.succ; rewrite plus_IZR;
        unfold Rabs in Ka; destruct (Rcase_abs (psq h + msq h - IZR k)); lra. }
    assert (Nb : b = k).
    { apply Z.le_antisymm; apply Z.lt_succ_r; apply lt_IZR; unfold Z.succ; rewrite plus_IZR;
        unfold Rabs in Kb; destruct (Rcase_abs (esq h - IZR k)); lra. }
    congruence.
Qed.

Example C92_check_ex :
  pid_right [] (h_int (N := B64Num) ex_hit Ipid) (of_hit ex_hit Vmass) /\
  pid_wrong [] (h_int (N := B64Num) ex_hit Ipid) (of_hit (fs ex_hit Vmass (b64_of_Z 139)) Vmass) /\
  check plain [] ex_hit = inr false /\ check plain [] (fst (mass_shell64 plain ex_hit "energy")) = inr true.
Proof.
  split; [|split; [|split; vm_compute; reflexivity]].
  - unfold pid_right. cbn -[Rabs]. destruct (table_quotient 1056583668 10000000) as (_ & K & _); [lia|lia|].
    apply like_error in K; [|apply small_n; lia]. simpl INR in K.
    rewrite (Rabs_right (IZR 1056583668 / IZR 10000000)) in K by lra.
    assert (U : u <= / 10 ^ 6) by (unfold u; simpl; lra). pose proof u_pos.
    eapply Rle_trans; [exact K|]. lra.
  - destruct (ofZ_exact 139) as [_ V]; [lia|].
    replace (of_hit (fs ex_hit Vmass (b64_of_Z 139)) Vmass) with 139 by (symmetry; exact V).
    unfold pid_wrong. cbn -[Rabs].
    rewrite Rabs_right; lra.
Qed.

(** A hit put on its mass shell through the energy passes the check, unless the square of the energy is close to
    half-way between two integers. *)
Theorem C92_on_shell L bad h k : accurate L -> (forall v, In v [Vpx; Vpy; Vpz; Vmass] -> moderate (h_dbl (N := B64Num) h v)) ->
  pid_right bad (h_int (N := B64Num) h Ipid) (of_hit h Vmass) ->
  rounds_to k (120 * / 2 ^ 53 * (psq h + msq h)) (psq h + msq h) ->
  exists h', mass_shell64 L h "energy" = (h', ShTrue) /\ check L bad h' = inr true.
Proof.
  intros A M Q K. rewrite pow_m53 in K.
  assert (Ms : forall v, In v [Vpx; Vpy; Vpz; Vmass] -> fin (fg h v) = true /\ scaled 300 (val (fg h v))).
  { intros v I. apply moderate_scaled. exact (M v I). }
  destruct (energy_like L A h Ms) as (e & E & F & Ke).
  exists (fs h Venergy e). split; [exact E|].
  destruct (Ms Vmass) as [Fm Sm]; [cbn; tauto|].
  destruct (check_pid L bad (fs h Venergy e) Fm Sm) as [C1 _]. rewrite (C1 Q).
  destruct (psq_scaled h) as [SP P]; [intros v I; apply Ms; cbn in *; tauto|].
  assert (P2 : 0 <= msq h) by apply sq_nonneg.
  assert (S : scaled 603 (msq h + psq h)).
  { apply (scaled_sum 602); try lia; try assumption. apply (scaled_le 600); [lia|]. exact (scaled_sq 300 _ Sm). }
  destruct (shell_test_ok L A (fs h Venergy e)) as (a & b & Et & Ha & Hb).
  { intros v I. rewrite fs_other; [now apply Ms|]. intros EV. subst v. cbn in I. intuition discriminate. }
  { exact F. }
  { change (fg (fs h Venergy e) Venergy) with e. apply (scaled_le (302 + 1)); [lia|].
    apply (like_scaled 9 302 (sqrt (msq h + psq h))); [apply small_n; lia|exact Ke|].
    apply scaled_sqrt; [lra|]. apply (scaled_le 603); [lia|exact S]. }
  rewrite Et. f_equal. apply Z.eqb_eq.
  change (psq (fs h Venergy e)) with (psq h) in Ha. change (msq (fs h Venergy e)) with (msq h) in Ha.
  change (esq (fs h Venergy e)) with (val e * val e) in Hb.
  apply like_sq in Ke. rewrite sqrt_sqrt in Ke by lra. apply like_error in Ke; [|apply small_n; lia].
  cbn [Nat.add] in Ke. replace (INR 18) with 18 in Ke by (rewrite INR_IZR_INZ; reflexivity).
  rewrite (Rabs_right (msq h + psq h)) in Ke by lra. pose proof u_pos as Pu. pose proof u_small as Su.
  set (W := psq h + msq h) in *. replace (msq h + psq h) with W in Ke by (unfold W; ring). set (e2 := val e * val e) in *.
  assert (W0 : 0 <= W) by (unfold W; lra).
  assert (UW : 0 <= u * W) by (apply Rmult_le_pos; lra).
  apply Rabs_le_inv in Ke, Ha, Hb.
  assert (E2 : e2 <= 2 * W).
  { assert (36 * (u * W) <= W). { apply Rle_trans with (36 * (/ 1000 * W)); [apply Rmult_le_compat_l; [lra|apply Rmult_le_compat_r; lra]|lra]. } lra. }
  assert (UE : u * e2 <= 2 * (u * W)). { apply Rle_trans with (u * (2 * W)); [apply Rmult_le_compat_l; lra|lra]. }
  unfold rounds_to in K. assert (Na : a = k).
  { apply Z.le_antisymm; apply Z.lt_succ_r; apply lt_IZR; unfold Z.succ; rewrite plus_IZR;
      unfold Rabs in K; destruct (Rcase_abs (W - IZR k)); lra. }
  assert (Nb : b = k).
  { apply Z.le_antisymm; apply Z.lt_succ_r; apply lt_IZR; unfold Z.succ; rewrite plus_IZR;
      unfold Rabs in K; destruct (Rcase_abs (W - IZR k)); lra. }
  congruence.
Qed.

(** Not every hit put on its mass shell passes the check: this muon of 29 MeV/c and this one of 300 TeV/c do not,
    although mass_shell_condition has just set the energy. *)
Definition slow_muon : FHit := fs (fs (fs ex_hit Vpx fzero) Vpy fzero) Vpz (fdiv (b64_of_Z 8176397629163834) (b64_of_Z (2 ^ 48))).
Definition fast_muon : FHit := fs (fs (fs ex_hit Vpx (b64_of_Z 12345)) Vpy fzero) Vpz (b64_of_Z 300000000).
Theorem C92_check_refuted :
  snd (mass_shell64 plain slow_muon "energy") = ShTrue /\
  check plain [] (fst (mass_shell64 plain slow_muon "energy")) = inr false /\
  snd (mass_shell64 plain fast_muon "energy") = ShTrue /\
  check plain [] (fst (mass_shell64 plain fast_muon "energy")) = inr false.
Proof. repeat split; vm_compute; reflexivity. Qed.

(** And a photon with momentum but no energy passes it. *)
Definition dark_photon : FHit :=
  mkHit (N := B64Num) (fun v => match v with Vpz => fdiv (b64_of_Z 7) (b64_of_Z 10) | _ => fzero end)
    (fun v => match v with Ipid => 22%Z | _ => 0%Z end).
Theorem C92_check_weak_refuted : check plain [] dark_photon = inr true /\ esq dark_photon = 0 /\ 48 / 100 < psq dark_photon.
Proof.
  split; [vm_compute; reflexivity|]. split.
  - unfold esq, of_hit. cbn [h_dbl dark_photon]. simpl. ring.
  - unfold psq, of_hit. cbn [h_dbl dark_photon]. destruct (table_quotient 7 10) as (_ & K & _); [lia|lia|].
    apply like_error in K; [|apply small_n; lia]. simpl INR in K. rewrite (Rabs_right (IZR 7 / IZR 10)) in K by lra.
    assert (U : u <= / 10 ^ 6) by (unfold u; simpl; lra). pose proof u_pos. apply Rabs_le_inv in K.
    change (value fzero) with 0. change (value (fdiv (b64_of_Z 7) (b64_of_Z 10))) with (val (fdiv (b64_of_Z 7) (b64_of_Z 10))).
    set (x := val (fdiv (b64_of_Z 7) (b64_of_Z 10))) in *. assert (B : 699 / 1000 <= x) by lra.
    pose proof (Rmult_le_compat (699 / 1000) x (699 / 1000) x ltac:(lra) ltac:(lra) B B). lra.
Qed.

(** The check raises: an infinite energy. *)
Theorem C92_check_raises_refuted : check plain [] (fs dark_photon Venergy (B754_infinity false)) = inl FOverflow /\
  check plain [] (fs dark_photon Venergy B754_nan) = inl FValueError.
Proof. split; vm_compute; reflexivity. Qed.

Print Assumptions C92_library_ex.
Print Assumptions C92_energy.
Print Assumptions C92_component.
Print Assumptions C92_p.
Print Assumptions C92_p_below_refuted.
Print Assumptions C92_check.
Print Assumptions C92_on_shell.
Print Assumptions C92_check_refuted.
Print Assumptions C92_check_weak_refuted.
Print Assumptions C92_check_raises_refuted.
