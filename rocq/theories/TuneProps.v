(** Property C74: the tune from a Fourier transform. *)
From Coq Require Import Reals ZArith List Bool Lia Lra Psatz Arith Permutation Sorted.
From Verif Require Import PyLibModel PyLibProofs HitPyModel HitPySpec CommonModel CommonProofs GridProofs AlgoModel AlgoSpec AlgoProps
  TuneModel TuneSpec TuneProofs.
Import ListNotations.
Open Scope list_scope.
Open Scope R_scope.

(** numpy.fft.rfft exists. *)
Definition dft (u : list R) : list (R * R) :=
  map (fun i => (sum_n (length u) (fun m => nth m u 0 * cos (2 * PI * INR i * INR m / INR (length u))),
                 - sum_n (length u) (fun m => nth m u 0 * sin (2 * PI * INR i * INR m / INR (length u)))))
    (seq 0 (length u / 2 + 1)).

Lemma dft_ok : is_rfft dft.
Proof.
  intros u _. unfold dft. rewrite map_length, seq_length. split; [reflexivity|]. intros i Hi. rewrite nth_map_seq by auto. reflexivity.
Qed.

Definition default_finder : list R -> AErr + list nat := window_peaks 5 0 1.

(** Without refinement the tune is j/(N+1), where j is the first frequency, counted from 0, where
    the transform has its largest value at a peak found; the peak at frequency 0 does not count. *)
Theorem C74_result rfft find (hanning : bool) fuel tol st u peaks :
  is_rfft rfft -> t_u st = Some u -> Nat.even (length u) = false ->
  find (spectrum u) = inr peaks -> NoDup peaks -> (forall i, In i peaks -> (i < length (spectrum u))%nat) ->
  (exists i, In i peaks /\ i <> 0%nat) -> 2 / (INR (length u) + 1) <= tol ->
  exists st' j, get_tune rfft find hanning fuel (Some tol) st = (st', inr (INR j / (INR (length u) + 1))) /\
    t_tune st' = Some (INR j / (INR (length u) + 1)) /\ t_u st' = Some u /\
    (j < length (spectrum u))%nat /\
    (exists p, In p peaks /\ p <> 0%nat /\ nth p (spectrum u) 0 = nth j (spectrum u) 0) /\
    (forall q, In q peaks -> q <> 0%nat -> nth q (spectrum u) 0 <= nth j (spectrum u) 0) /\
    (forall i, (i < j)%nat -> nth i (spectrum u) 0 <> nth j (spectrum u) 0).
Proof.
  intros F U E Fd ND B Hp Ht. rewrite (spectrum_sft u E) in *. rewrite map_length in B.
  destruct (get_tune_start rfft find hanning fuel tol st u peaks F U E Fd ND B Hp) as (ps & j & PD & PS & G & J1 & (p & J2 & J3) & J4 & J5).
  rewrite G. clear G. rewrite freq_length in *. pose proof (half_INR _ E) as H2. pose proof (N1_pos (length u)) as P.
  unfold rltb. destruct (Rlt_dec tol (1 / INR ((length u + 1) / 2))) as [Z|_].
  { exfalso. replace (INR ((length u + 1) / 2)) with ((INR (length u) + 1) / 2) in Z by lra.
    replace (1 / ((INR (length u) + 1) / 2)) with (2 / (INR (length u) + 1)) in Z by (field; lra). lra. }
  cbn [answer t_tune]. rewrite freq_nth by auto. do 2 eexists. split; [reflexivity|]. cbn [t_tune t_u]. split; [reflexivity|]. split; [reflexivity|].
  rewrite map_length, freq_length. split; [exact J1|].
  assert (V : forall i, (i < (length u + 1) / 2)%nat -> nth i (map (sft false u) (freq (length u))) 0 = sft false u (nth i (freq (length u)) 0)).
  { intros i Hi. apply nth_map_f. rewrite freq_length. auto. }
  split; [|split].
  - exists p. destruct (proj1 (PS p) J2) as (A1 & A2). split; auto. split; auto. rewrite !V by auto. auto.
  - intros q Hq Hz. assert (I : In q ps) by (apply PS; auto). rewrite !V by auto. auto.
  - intros i Hi. rewrite !V by lia. auto.
Qed.
Print Assumptions C74_result.

(** No peak but the one at frequency 0: ValueError; the search for peaks of the slow transform is
    not reached. *)
Theorem C74_no_peaks rfft find (hanning : bool) fuel tol u up peaks :
  is_rfft rfft -> Nat.even (length u) = false -> find (spectrum u) = inr peaks -> peaks = [] \/ peaks = [0%nat] ->
  snd (get_tune rfft find hanning fuel tol (new_tune (Some u) up)) = inl TValue.
Proof. intros F E Fd L. rewrite (spectrum_sft u E) in Fd. apply (get_tune_fails _ _ _ _ _ _ _ peaks); auto. Qed.
Print Assumptions C74_no_peaks.

(** Samples of an oscillation of q periods in N samples, with the default finder and without
    refinement: the transform has the peak at q, but the tune reported is q/(N+1), not q/N. *)
Lemma increasing_nodup l : increasing l -> NoDup l.
Proof.
  induction 1 as [|x l H IH F]; constructor; auto. rewrite Forall_forall in F. intros I. specialize (F x I). lia.
Qed.

Lemma peaks_bound data window_size threshold step peaks : data <> [] -> (0 < window_size)%nat -> (0 < step)%nat ->
  window_peaks window_size threshold step data = inr peaks ->
  NoDup peaks /\ forall p, In p peaks -> (p < length data)%nat.
Proof.
  intros Hd Hw Hs E. destruct (C48_window_peaks data window_size threshold step Hd Hw Hs) as (l & E' & I & H).
  rewrite E in E'. injection E' as <-. split; [apply increasing_nodup; auto|]. intros p Hp. apply H in Hp.
  destruct Hp as (i & (S1 & _) & (W1 & _) & _). lia.
Qed.

Theorem C74_tone rfft (hanning : bool) fuel tol N q A phi up :
  is_rfft rfft -> Nat.even N = false -> (5 <= N)%nat -> (1 <= q)%nat -> (2 * q < N)%nat -> A <> 0 -> 2 / (INR N + 1) <= tol ->
  snd (get_tune rfft default_finder hanning fuel (Some tol) (new_tune (Some (tone N q A phi)) up)) = inr (INR q / (INR N + 1)).
Proof.
  intros F E N5 Q1 Q2 HA Ht. destruct (odd_half N E) as (_ & H2).
  assert (Q3 : (q < (N + 1) / 2)%nat) by lia. assert (PN : 0 < INR N) by (apply lt_0_INR; lia).
  assert (PA : 0 < Rabs A * INR N / 2). { apply Rabs_pos_lt in HA. apply Rmult_lt_0_compat; [apply Rmult_lt_0_compat; auto|lra]. }
  pose proof (fun i => tone_spectrum N q A phi i E Q1 Q3) as V. set (u := tone N q A phi) in *.
  assert (Lu : length u = N) by apply tone_length. assert (Ls : length (spectrum u) = ((N + 1) / 2)%nat) by (rewrite spectrum_length, Lu; reflexivity).
  assert (Vq : nth q (spectrum u) 0 = Rabs A * INR N / 2) by (rewrite V, Nat.eqb_refl by auto; reflexivity).
  destruct (C48_isolated (spectrum u) 5 0 q) as (peaks & Pk & Iq); try lra; try lia.
  { unfold val. intros i Hi Ne _ _. rewrite Vq, V by lia. destruct (Nat.eqb_spec i q); [contradiction|auto]. }
  destruct (peaks_bound (spectrum u) 5 0 1 peaks) as (ND & B); auto; try lia.
  { intros Z. rewrite Z in Ls. cbn [length] in Ls. lia. }
  destruct (C74_result rfft default_finder hanning fuel tol (new_tune (Some u) up) u peaks) as (st' & j & G & _ & _ & J1 & (p & J2 & J3 & J4) & J5 & _); auto.
  { rewrite Lu. auto. }
  { exists q. split; auto. lia. }
  { rewrite Lu. auto. }
  rewrite G, Lu. cbn [snd]. specialize (J5 q Iq). rewrite Vq, V in J5 by lia.
  destruct (Nat.eqb_spec j q) as [-> |]; [reflexivity|]. specialize (J5 ltac:(lia)). lra.
Qed.
Print Assumptions C74_tone.

Theorem C74_tone_refuted :
  exists u tol, u = tone 5 1 1 0 /\
    snd (get_tune dft default_finder false 0 (Some tol) (new_tune (Some u) None)) = inr (1 / 6).
Proof.
  exists (tone 5 1 1 0), 1. split; [reflexivity|]. rewrite C74_tone; try lia; try reflexivity.
  - f_equal. cbn [INR]. field.
  - apply dft_ok.
  - lra.
  - cbn [INR]. lra.
Qed.
Print Assumptions C74_tone_refuted.

(** The object used again with data of which the finder finds no peak: no ValueError, but the tune is read off
    at the old peaks. *)
Lemma only_one l (P : nat -> Prop) : increasing l -> (forall p, In p l <-> P p) -> (forall p, P p <-> p = 1%nat) -> l = [1%nat].
Proof.
  intros I H HP. assert (HH : forall p, In p l <-> p = 1%nat) by (intros p; rewrite H; auto).
  destruct l as [|a l]; [exfalso; apply (proj2 (HH 1%nat)); auto|].
  assert (a = 1%nat) by (apply HH; left; auto). subst. f_equal. destruct l as [|b l]; auto. exfalso.
  assert (b = 1%nat) by (apply HH; right; left; auto). subst. apply increasing_nodup in I. inversion I as [|x y Z _]. apply Z. left. reflexivity.
Qed.

Theorem C74_stale_refuted :
  exists u0 u1 find, let st0 := new_tune (Some u0) None in let st1 := fst (get_tune dft find false 0 (Some 1) st0) in
    snd (get_tune dft find false 0 (Some 1) (new_tune (Some u1) None)) = inl TValue /\
    snd (get_tune dft find false 0 (Some 1)
      (mkTune (Some u1) (t_up st1) (t_tune st1) (t_peak_x st1) (t_peak_y st1) (t_k_x st1) (t_k_y st1))) = inr 0.
Proof.
  exists (tone 5 1 1 0), [1; 0; 0; 0; 0], (fun d => inr (uphill_peaks d)). cbv zeta.
  set (u0 := tone 5 1 1 0). set (u1 := [1; 0; 0; 0; 0]). set (find := fun d => inr (uphill_peaks d) : AErr + list nat).
  assert (S0 : spectrum u0 = [0; 5 / 2; 0]).
  { apply (nth_ext _ _ 0 0); [reflexivity|]. intros i Hi. change (length (spectrum u0)) with 3%nat in Hi.
    unfold u0. rewrite tone_spectrum; try reflexivity; try (cbn; lia).
    destruct i as [|[|[|i]]]; cbn [Nat.eqb nth INR]; try lia; try reflexivity. rewrite Rabs_right by lra. field. }
  assert (S1 : spectrum u1 = [1; 1; 1]).
  { assert (M : forall nu, magnitude u1 nu = 1).
    { intros nu. unfold magnitude. cbn [length u1 sum_n nth INR]. rewrite !Rmult_0_r, cos_0, sin_0.
      match goal with |- sqrt ?x = 1 => replace x with 1 by ring end. apply sqrt_1. }
    unfold spectrum. cbn [length u1 Nat.add Nat.div Nat.divmod fst seq map]. fold u1. rewrite !M. reflexivity. }
  assert (F0 : find (spectrum u0) = inr [1%nat]).
  { rewrite S0. unfold find. f_equal. destruct (C47_peaks [0; 5 / 2; 0]) as (I & H). apply (only_one _ (local_max [0; 5 / 2; 0])); auto.
    intros p. unfold local_max, val. split.
    - cbn [length]. intros (A & B & _). lia.
    - intros ->. cbn. repeat split; try lia; lra. }
  assert (F1 : find (spectrum u1) = inr []).
  { rewrite S1. unfold find. f_equal. destruct (C47_peaks [1; 1; 1]) as (I & H). destruct (uphill_peaks [1; 1; 1]) as [|p l]; auto.
    exfalso. destruct (proj1 (H p)) as (A & B & C & D); [left; auto|]. unfold val in *. cbn [length] in B.
    assert (p = 1%nat) by lia. subst. cbn in C. lra. }
  split.
  { apply (C74_no_peaks dft find false 0 (Some 1) u1 None []); auto. apply dft_ok. }
  rewrite spectrum_sft in F0 by reflexivity.
  destruct (get_tune_start dft find false 0 1 (new_tune (Some u0) None) u0 [1%nat] dft_ok) as (ps & j & PD & PS & G & _); auto.
  { repeat constructor. auto. }
  { intros i [<-|[]]. cbn. lia. }
  { exists 1%nat. split; [left; auto|discriminate]. }
  rewrite G. clear G. replace (rltb 1 (1 / INR (length (freq (length u0))))) with false.
  2:{ symmetry. change (length (freq (length u0))) with 3%nat. unfold rltb. destruct (Rlt_dec _ _) as [Z|]; auto. exfalso. cbn [INR] in Z. lra. }
  cbn [answer fst t_u t_up t_tune t_peak_x t_peak_y t_k_x t_k_y].
  assert (ps = [1%nat]).
  { destruct ps as [|a ps]; [exfalso; apply (PS 1%nat); split; [left; auto|discriminate]|].
    assert (A1 : forall i, In i (a :: ps) -> i = 1%nat) by (intros i Hi; destruct (proj1 (PS i) Hi) as ([<-|[]] & _); auto).
    rewrite (A1 a) by (left; auto). f_equal. destruct ps as [|b ps]; auto. exfalso. inversion PD as [|x y Z _]. apply Z.
    rewrite (A1 a), (A1 b) by (cbn; auto). left. reflexivity. }
  subst ps. clear PD PS.
  destruct (fft_lists dft u1 dft_ok eq_refl) as (Lx & Ly). rewrite <- spectrum_sft in Ly by reflexivity.
  unfold get_tune. cbn [t_u]. unfold make_odd. change (Nat.even (length u1)) with false. cbv zeta.
  unfold fft_find_peaks. rewrite Lx, Ly. cbn [t_u t_up t_tune t_peak_x t_peak_y t_k_x t_k_y]. rewrite find_peaks_none by exact F1.
  rewrite S1. change (length u1) with 5%nat. change (length u0) with 5%nat.
  set (st := mkTune _ _ _ _ _ _ _).
  destruct (get_max_peak_some st [1%nat]) as (k & G & K1 & K2 & K3 & K4); auto.
  { apply freq_increasing. }
  { intros i [<-|[]]. cbn. lia. }
  { discriminate. }
  assert (k = 0%nat).
  { destruct k as [|k]; auto. exfalso. apply (K4 0%nat); [lia|]. cbn [st t_k_y]. change (length (t_k_x st)) with 3%nat in K1.
    destruct k as [|[|k]]; [reflexivity|reflexivity|lia]. }
  subst k. pose proof (get_max_peak_again _ _ G) as G2. set (st2 := mkTune _ _ _ _ _ _ _) in G, G2.
  cbn [and_then]. rewrite G. cbn [and_then]. change (length (t_peak_x st2)) with 1%nat. cbn [Nat.eqb and_then].
  rewrite G2. cbn [and_then]. change (length (t_k_x st2)) with 3%nat.
  unfold rltb. destruct (Rlt_dec _ _) as [Z|_]; [exfalso; cbn [INR] in Z; lra|]. cbn [t_tune st2 snd st t_k_x].
  rewrite freq_nth by (cbn; lia). f_equal. cbn [INR]. unfold Rdiv. ring.
Qed.
Print Assumptions C74_stale_refuted.

(** Data of even length lose their last element, in the caller's list as well. *)
Theorem C74_even rfft find (hanning : bool) fuel tol u x up y :
  Nat.even (length (u ++ [x])) = true ->
  get_tune rfft find hanning fuel tol (new_tune (Some (u ++ [x])) (Some (up ++ [y]))) =
  get_tune rfft find hanning fuel tol (new_tune (Some u) (Some up)).
Proof.
  intros E. assert (O : Nat.even (length u) = false).
  { rewrite app_length in E. cbn [length] in E. rewrite Nat.add_1_r, Nat.even_succ in E. rewrite <- Nat.negb_odd, E. reflexivity. }
  unfold get_tune at 1 2. cbn [t_u new_tune]. unfold make_odd at 1 2. rewrite E, O.
  destruct (u ++ [x]) eqn:A; [destruct u; discriminate|]. rewrite <- A. cbn [t_up new_tune].
  destruct (up ++ [y]) eqn:B; [destruct up; discriminate|]. rewrite <- B. rewrite removelast_last. cbn [option_map]. rewrite removelast_last.
  reflexivity.
Qed.
Print Assumptions C74_even.

Theorem C74_default rfft find (hanning : bool) fuel st u :
  t_u st = Some u -> Nat.even (length u) = false ->
  get_tune rfft find hanning fuel None st = get_tune rfft find hanning fuel (Some (1 / INR (length u) / 100)) st.
Proof. intros U E. unfold get_tune. rewrite U. unfold make_odd. rewrite E. reflexivity. Qed.
Print Assumptions C74_default.

(** ---- refinement ---- *)

(** Refinement of a peak p of a grid, for any transform with one hill around the peak: it ends; the
    new peak is a peak of the refined grid, between the neighbours of the old one, and not lower;
    its higher neighbour is closer than the tolerance; and no higher value of the transform lies
    outside its neighbours.  If the hill is symmetric the top is closer than the tolerance. *)
Theorem C74_refine f tol delta fuel grid p a b :
  increasing_R grid -> grid_peak f grid p -> a = nth (p - 1) grid 0 -> b = nth (p + 1) grid 0 -> one_hill f a b ->
  0 < delta -> delta <= tol / 2 -> delta <= nth p grid 0 - a -> delta <= b - nth p grid 0 -> (b - a) / delta < INR fuel ->
  exists grid' j, refine f tol fuel grid (map f grid) (nth p grid 0) = ((grid', map f grid'), inr (nth j grid' 0)) /\
    increasing_R grid' /\ incl grid grid' /\ grid_peak f grid' j /\
    a <= nth (j - 1) grid' 0 /\ nth (j + 1) grid' 0 <= b /\ f (nth p grid 0) <= f (nth j grid' 0) /\
    (nth (j + 1) grid' 0 - nth j grid' 0 < tol \/ nth j grid' 0 - nth (j - 1) grid' 0 < tol) /\
    (forall z, a <= z <= b -> f (nth j grid' 0) < f z -> nth (j - 1) grid' 0 < z < nth (j + 1) grid' 0) /\
    (forall c, symmetric_hill f a b c -> a <= c <= b -> nth p grid 0 - a = b - nth p grid 0 -> Rabs (nth j grid' 0 - c) < tol).
Proof.
  intros Inc Pk -> -> Hill D0 D1 D2 D3 Hf.
  destruct (refine_spec f tol delta _ _ D0 D1 Hill fuel grid p) as (g & j & E & Q1 & Q2 & _ & Q3 & Q4 & Q5 & Q6 & Q7 & Q8); auto; try lra.
  exists g, j. split; [exact E|]. split; auto. split; auto. split; auto. split; auto. split; auto. split; auto. split; auto. split.
  - destruct Q3 as (J1 & J2 & J3 & J4). intros z Hz Hi.
    assert (L1 : nth (j - 1) g 0 < nth j g 0) by (apply Q1; lia). assert (L2 : nth j g 0 < nth (j + 1) g 0) by (apply Q1; lia).
    split; apply Rnot_le_lt; intros Z.
    + destruct Z as [Z|Z]; [|subst; lra]. assert (W : Rmin (f z) (f (nth j g 0)) < f (nth (j - 1) g 0)) by (apply Hill; lra).
      rewrite Rmin_right in W by lra. lra.
    + destruct Z as [Z|Z]; [|subst; lra]. assert (W : Rmin (f (nth j g 0)) (f z) < f (nth (j + 1) g 0)) by (apply Hill; lra).
      rewrite Rmin_left in W by lra. lra.
  - intros c Sy Hc He. apply Q8; auto; intros; lra.
Qed.
Print Assumptions C74_refine.

(** The tune with refinement, for data with one peak. *)
Theorem C74_refined rfft find fuel tol st u p :
  let N := length u in let a := (INR p - 1) / (INR N + 1) in let b := (INR p + 1) / (INR N + 1) in
  is_rfft rfft -> t_u st = Some u -> Nat.even N = false -> find (spectrum u) = inr [p] ->
  (1 <= p)%nat -> (p + 1 < length (spectrum u))%nat ->
  (forall i, (i < length (spectrum u))%nat -> i <> p -> nth i (spectrum u) 0 < nth p (spectrum u) 0) ->
  one_hill (heard u) a b -> 0 < tol -> 4 / (tol * (INR N + 1)) + 2 < INR fuel ->
  exists st' t, get_tune rfft find false fuel (Some tol) st = (st', inr t) /\
    a < t < b /\ nth p (spectrum u) 0 <= heard u t /\
    (forall c, symmetric_hill (heard u) a b c -> a <= c <= b -> Rabs (t - c) < tol).
Proof.
  intros N a b F U E Fd P1 P2 Mx Hill T0 Hf. pose proof (N1_pos N) as PN. pose proof (half_INR _ E) as H2. fold N in H2.
  assert (Hu : u <> []) by (intros ->; discriminate).
  assert (HS : forall k, heard u k = sft false u k) by (intros k; rewrite sft_magnitude by auto; reflexivity).
  rewrite spectrum_length in *. fold N in P2, Mx. rewrite (spectrum_sft u E) in Fd.
  assert (Bd : forall i, In i [p] -> (i < length (freq (length u)))%nat) by (intros i [<-|[]]; rewrite freq_length; fold N; lia).
  destruct (get_tune_start rfft find false fuel tol st u [p] F U E Fd) as (ps & j & PD & PS & G & J1 & (p0 & J2 & J3) & _); auto.
  { repeat constructor. auto. }
  { exists p. split; [left; auto|lia]. }
  assert (ps = [p]).
  { destruct ps as [|x ps]; [exfalso; apply (PS p); split; [left; auto|lia]|].
    assert (A1 : forall i, In i (x :: ps) -> i = p) by (intros i Hi; destruct (proj1 (PS i) Hi) as ([<-|[]] & _); auto).
    rewrite (A1 x) by (left; auto). f_equal. destruct ps as [|y ps]; auto. exfalso. inversion PD as [|x' y' Z _]. apply Z.
    rewrite (A1 x), (A1 y) by (cbn; auto). left. reflexivity. }
  subst ps. clear PD PS. rewrite G. clear G. fold N. rewrite freq_length.
  assert (V : forall i, (i < (N + 1) / 2)%nat -> nth i (spectrum u) 0 = sft false u (nth i (freq N) 0)).
  { intros i Hi. rewrite (spectrum_sft u E). apply nth_map_f. rewrite freq_length. auto. }
  assert (Xp : nth p (freq N) 0 = INR p / (INR N + 1)) by (apply freq_nth; lia).
  assert (Xa : nth (p - 1) (freq N) 0 = a).
  { rewrite freq_nth by lia. unfold a. rewrite minus_INR by lia. reflexivity. }
  assert (Xb : nth (p + 1) (freq N) 0 = b).
  { rewrite freq_nth by lia. unfold b. rewrite plus_INR. reflexivity. }
  assert (Wd : / (INR N + 1) > 0) by (apply Rinv_0_lt_compat; auto).
  assert (Wa : nth p (freq N) 0 - a = / (INR N + 1)) by (rewrite Xp; unfold a; field; lra).
  assert (Wb : b - nth p (freq N) 0 = / (INR N + 1)) by (rewrite Xp; unfold b; field; lra).
  destruct (rltb tol (1 / INR ((N + 1) / 2))) eqn:Tt.
  - (* refined *)
    assert (Hill' : one_hill (sft false u) a b).
    { intros x y z A B C D. rewrite <- !HS. apply Hill; auto. }
    set (delta := Rmin (tol / 2) (/ (INR N + 1))).
    assert (D0 : 0 < delta) by (unfold delta; apply Rmin_glb_lt; lra).
    assert (D1 : delta <= tol / 2) by apply Rmin_l. assert (D2 : delta <= / (INR N + 1)) by apply Rmin_r.
    assert (Pk : grid_peak (sft false u) (freq N) p).
    { split; [lia|]. split; [rewrite freq_length; lia|]. rewrite <- !V by lia. split; left; apply Mx; lia. }
    destruct (refine_spec (sft false u) tol delta a b D0 D1 Hill' fuel (freq N) p) as (g & k & R1 & Q1 & Q2 & Q2' & Q3 & Q4 & Q5 & Q6 & Q7 & Q8); auto; rewrite ?Xa, ?Xb in *; try lra.
    { apply freq_increasing. }
    { assert (W : b - a = 2 * / (INR N + 1)) by lra. rewrite W. apply (Rle_lt_trans _ (4 / (tol * (INR N + 1)) + 2)); auto.
      apply (Rmult_le_reg_r delta); auto. unfold Rdiv at 1. rewrite Rmult_assoc, Rinv_l by lra. rewrite Rmult_1_r.
      unfold delta, Rmin. destruct (Rle_dec (tol / 2) (/ (INR N + 1))).
      - replace ((4 / (tol * (INR N + 1)) + 2) * (tol / 2)) with (2 * / (INR N + 1) + tol) by (field; lra). lra.
      - replace ((4 / (tol * (INR N + 1)) + 2) * / (INR N + 1)) with (2 * / (INR N + 1) + 4 / (tol * (INR N + 1)) * / (INR N + 1)) by (field; lra).
        assert (0 < 4 / (tol * (INR N + 1)) * / (INR N + 1)); [|lra].
        apply Rmult_lt_0_compat; [|lra]. apply Rmult_lt_0_compat; [lra|]. apply Rinv_0_lt_compat, Rmult_lt_0_compat; auto. }
    destruct Q3 as (K1 & K2 & K3 & K4).
    cbn [length refine_peaks t_k_x t_k_y t_peak_x t_peak_y t_u t_up t_tune map nth]. rewrite R1.
    rewrite (find_index_increasing g k Q1) by lia. cbn [set_nth and_then]. rewrite nth_map_f by lia.
    set (st1 := mkTune _ _ _ _ _ _ _).
    destruct (get_max_peak_some st1 [k]) as (m & G & M1 & (q & M2 & M3) & _ & _); auto.
    { cbn. apply map_length. }
    { intros i [<-|[]]. cbn. lia. }
    { discriminate. }
    destruct M2 as [<-|[]]. rewrite G. cbn [answer t_tune]. do 2 eexists. split; [reflexivity|].
    cbn [t_k_x t_k_y st1] in M1, M3 |- *. rewrite !nth_map_f in M3 by lia.
    assert (Mb : a < nth m g 0 < b).
    { destruct (Q2' (nth m g 0)) as [I|I]; [apply nth_In; lia| |lra].
      apply (In_nth _ _ 0) in I. destruct I as (i & I1 & I2). rewrite freq_length in I1. destruct (Nat.eq_dec i p) as [-> |Ne].
      - rewrite <- I2. lra.
      - exfalso. pose proof (Mx i I1 Ne) as Z. rewrite !V in Z by lia. rewrite I2, <- M3 in Z. lra. }
    split; [exact Mb|]. rewrite HS, <- M3, V by lia. split; [exact Q6|].
    intros c Sy Hc. assert (Sy' : symmetric_hill (sft false u) a b c).
    { intros x y A B. rewrite <- !HS. apply Sy; auto. }
    assert (Ck : Rabs (nth k g 0 - c) < tol) by (apply Q8; auto; intros; lra).
    assert (Kb : a <= nth k g 0 <= b).
    { assert (nth (k - 1) g 0 < nth k g 0) by (apply Q1; lia). assert (nth k g 0 < nth (k + 1) g 0) by (apply Q1; lia). lra. }
    apply Rnot_le_lt. intros Z. assert (Y : Rabs (nth k g 0 - c) < Rabs (nth m g 0 - c)) by lra.
    apply Sy' in Y; [|lra|lra]. lra.
  - (* not refined *)
    assert (Hj : j = p).
    { destruct (Nat.eq_dec j p) as [|Ne]; auto. exfalso. destruct J2 as [<-|[]]. fold N in J1, J3. rewrite freq_length in J1.
      pose proof (Mx j J1 Ne) as Z. rewrite !V in Z by lia. lra. }
    subst j. cbn [answer t_tune]. do 2 eexists. split; [reflexivity|]. split; [lra|]. split; [rewrite HS, V by lia; lra|].
    intros c _ Hc. unfold rltb in Tt. destruct (Rlt_dec tol (1 / INR ((N + 1) / 2))) as [|Z]; [discriminate|].
    replace (INR ((N + 1) / 2)) with ((INR N + 1) / 2) in Z by lra.
    replace (1 / ((INR N + 1) / 2)) with (2 * / (INR N + 1)) in Z by (field; lra).
    unfold Rabs. destruct (Rcase_abs _); lra.
Qed.
Print Assumptions C74_refined.

Lemma symmetric_one f a b c : symmetric_hill f a b c -> one_hill f a b.
Proof.
  intros Sy x y z A B C D. destruct (Rlt_le_dec (Rabs (y - c)) (Rabs (x - c))) as [H|H].
  - apply (Rle_lt_trans _ (f x)); [apply Rmin_l|]. apply Sy; auto; lra.
  - apply (Rle_lt_trans _ (f z)); [apply Rmin_r|]. apply Sy; try lra. unfold Rabs in *. repeat destruct (Rcase_abs _); lra.
Qed.

(** The samples 1, 0, -1, 0, 0: the top of the transform is at a quarter of a period for each
    sample. *)
Lemma quarter_heard k : heard [1; 0; -1; 0; 0] k = 2 * Rabs (sin (12 * PI * k / 5)).
Proof.
  unfold heard, magnitude. cbn [length sum_n nth INR].
  replace (2 * PI * (k * (1 + 1 + 1 + 1 + 1 + 1) / (1 + 1 + 1 + 1 + 1)) * (1 + 1)) with (2 * (12 * PI * k / 5)) by field.
  rewrite !Rmult_0_r, cos_0, sin_0. set (t := 12 * PI * k / 5).
  match goal with |- sqrt ?e = _ => replace e with ((2 * sin t)²) end.
  - rewrite sqrt_Rsqr_abs, Rabs_mult, (Rabs_right 2) by lra. reflexivity.
  - rewrite cos_2a_sin, sin_2a. pose proof (sin2_cos2 t) as E. unfold Rsqr in *.
    assert (C : cos t * cos t = 1 - sin t * sin t) by lra.
    match goal with |- ?l = ?r => replace r with (4 * (sin t * sin t) * (sin t * sin t) + 4 * (sin t * sin t) * (cos t * cos t)) by ring end.
    rewrite C. ring.
Qed.

Lemma quarter_symmetric : symmetric_hill (heard [1; 0; -1; 0; 0]) 0 (1 / 3) (5 / 24).
Proof.
  pose proof PI_RGT_0 as Pp.
  assert (V : forall k, 0 <= k <= 1 / 3 -> heard [1; 0; -1; 0; 0] k = 2 * cos (12 * PI / 5 * Rabs (k - 5 / 24))).
  { intros k Hk. rewrite quarter_heard. rewrite Rabs_right.
    2:{ apply Rle_ge, sin_ge_0; nra. }
    f_equal. rewrite <- cos_shift. unfold Rabs. destruct (Rcase_abs _).
    - f_equal. field.
    - rewrite <- cos_neg. f_equal. field. }
  intros x y Hx Hy. rewrite !V by auto.
  assert (B : forall k, 0 <= k <= 1 / 3 -> 0 <= 12 * PI / 5 * Rabs (k - 5 / 24) <= PI).
  { intros k Hk. assert (0 <= Rabs (k - 5 / 24) <= 5 / 24) by (unfold Rabs; destruct (Rcase_abs _); lra). nra. }
  pose proof (B x Hx). pose proof (B y Hy). split; intros H1.
  - apply Rnot_le_lt. intros Z. assert (W : 12 * PI / 5 * Rabs (x - 5 / 24) <= 12 * PI / 5 * Rabs (y - 5 / 24)) by (apply Rmult_le_compat_l; [lra|auto]).
    assert (cos (12 * PI / 5 * Rabs (y - 5 / 24)) <= cos (12 * PI / 5 * Rabs (x - 5 / 24))) by (apply cos_decr_1; tauto). lra.
  - assert (W : 12 * PI / 5 * Rabs (y - 5 / 24) < 12 * PI / 5 * Rabs (x - 5 / 24)) by (apply Rmult_lt_compat_l; [lra|auto]).
    assert (cos (12 * PI / 5 * Rabs (x - 5 / 24)) < cos (12 * PI / 5 * Rabs (y - 5 / 24))) by (apply cos_decreasing_1; tauto). lra.
Qed.

Lemma three_peaks a b c : a < b -> c < b -> default_finder [a; b; c] = inr [1%nat].
Proof.
  intros Ha Hc. unfold default_finder. destruct (C48_window_peaks [a; b; c] 5 0 1) as (l & -> & I & H); try lia; [discriminate|].
  f_equal. eapply only_one; [exact I|exact H|]. cbv beta. intros p. cbn [length Nat.min]. split.
  - intros (i & (S1 & _) & (W1 & W2 & W3) & _). assert (i = 0%nat) by lia. subst. destruct p as [|[|[|p]]]; try lia.
    + exfalso. specialize (W3 1%nat ltac:(lia)). unfold val in W3. cbn in W3. lra.
    + exfalso. specialize (W2 1%nat ltac:(lia)). unfold val in W2. cbn in W2. lra.
  - intros ->. exists 0%nat. split; [split; [lia|exists 0%nat; lia]|]. split.
    + split; [lia|]. unfold val. split; intros q Hq.
      * assert (q = 0%nat) by lia. subst. cbn. lra.
      * assert (q = 1%nat \/ q = 2%nat) as [-> | ->] by lia; cbn; lra.
    + split; [unfold on_inner_edge; lia|]. left. lra.
Qed.

Lemma spectrum5 u : length u = 5%nat -> spectrum u = [heard u 0; heard u (1 / 6); heard u (1 / 3)].
Proof.
  intros L. unfold spectrum, heard. rewrite L. cbn [Nat.add Nat.div Nat.divmod fst seq map INR].
  repeat (f_equal; try field).
Qed.

Example C74_refined_ex tol fuel : 0 < tol -> 4 / (tol * 6) + 2 < INR fuel ->
  exists t, snd (get_tune dft default_finder false fuel (Some tol) (new_tune (Some [1; 0; -1; 0; 0]) None)) = inr t /\
    Rabs (t - 5 / 24) < tol.
Proof.
  intros T0 Hf. set (u := [1; 0; -1; 0; 0]). pose proof quarter_symmetric as Sy. fold u in Sy.
  assert (S5 : spectrum u = [heard u 0; heard u (1 / 6); heard u (1 / 3)]) by (apply spectrum5; reflexivity).
  assert (A0 : heard u 0 < heard u (1 / 6)) by (apply Sy; try lra; unfold Rabs; repeat destruct (Rcase_abs _); lra).
  assert (A2 : heard u (1 / 3) < heard u (1 / 6)) by (apply Sy; try lra; unfold Rabs; repeat destruct (Rcase_abs _); lra).
  assert (Ea : (INR 1 - 1) / (INR (length u) + 1) = 0) by (cbn [length u INR]; field).
  assert (Eb : (INR 1 + 1) / (INR (length u) + 1) = 1 / 3) by (cbn [length u INR]; field).
  destruct (C74_refined dft default_finder fuel tol (new_tune (Some u) None) u 1) as (st' & t & G & _ & _ & C); auto.
  - apply dft_ok.
  - rewrite S5. apply three_peaks; auto.
  - rewrite S5. cbn [length]. intros i Hi Ne. destruct i as [|[|[|i]]]; cbn [nth]; auto; lia.
  - rewrite Ea, Eb. apply (symmetric_one _ _ _ _ Sy).
  - replace (INR (length u) + 1) with 6 by (cbn [length u INR]; ring). exact Hf.
  - rewrite Ea, Eb in C. exists t. rewrite G. split; [reflexivity|]. apply C; [exact Sy|lra].
Qed.

(** ---- what refinement does not do ---- *)
Lemma fifth : let c := cos (2 * PI / 5) in 4 * c * c + 2 * c = 1 /\ 3 / 10 < c < 31 / 100.
Proof.
  intros c. pose proof PI_RGT_0 as Pp.
  assert (C0 : 0 < c) by (apply cos_gt_0; lra).
  assert (C1 : c < 1). { unfold c. rewrite <- cos_0. apply cos_decreasing_1; lra. }
  assert (E : cos (2 * PI / 5 + 2 * (2 * PI / 5)) = cos (2 * (2 * PI / 5))).
  { rewrite <- (cos_neg (2 * (2 * PI / 5))). replace (2 * PI / 5 + 2 * (2 * PI / 5)) with (- (2 * (2 * PI / 5)) + 2 * INR 1 * PI) by (cbn [INR]; field). apply cos_period. }
  rewrite cos_plus, cos_2a_cos, sin_2a in E. fold c in E. pose proof (sin2_cos2 (2 * PI / 5)) as Q. unfold Rsqr in Q. fold c in Q.
  set (s := sin (2 * PI / 5)) in *.
  assert (K : (c - 1) * (4 * c * c + 2 * c - 1) = 0).
  { replace (c * (2 * c * c - 1) - s * (2 * s * c)) with (c * (2 * c * c - 1) - 2 * (s * s) * c) in E by ring.
    replace (s * s) with (1 - c * c) in E by lra. nra. }
  apply Rmult_integral in K. assert (F : 4 * c * c + 2 * c = 1) by (destruct K; lra). split; [exact F|]. nra.
Qed.

Lemma fifth_values : let c := cos (2 * PI / 5) in
  cos (PI / 5) = 1 / 2 + c /\ cos (3 * PI / 5) = - c /\ cos (4 * PI / 5) = - (1 / 2 + c).
Proof.
  intros c. destruct fifth as (F & _). fold c in F.
  assert (A : cos (4 * PI / 5) = - (1 / 2 + c)).
  { replace (4 * PI / 5) with (2 * (2 * PI / 5)) by field. rewrite cos_2a_cos. fold c. lra. }
  split; [|split; [|exact A]].
  - replace (PI / 5) with (- (4 * PI / 5) + PI) by field. rewrite neg_cos, cos_neg, A. ring.
  - replace (3 * PI / 5) with (- (2 * PI / 5) + PI) by field. rewrite neg_cos, cos_neg. reflexivity.
Qed.

(** The transforms of two lists of samples, in terms of the cosine. *)
Definition slope_poly (c : R) : R := 5 + 9 * c + 12 * c ^ 2 - 8 * c ^ 3 - 16 * c ^ 4.
Definition valley_poly (c : R) : R := 1 + 7 * c + 16 * c ^ 2 - 8 * c ^ 3 - 16 * c ^ 4.

Lemma heard5 a0 a1 a2 a3 a4 k : let t := 12 * PI * k / 5 in
  let y := a0 + a1 * cos t + a2 * cos (2 * t) + a3 * cos (3 * t) + a4 * cos (4 * t) in
  let z := a1 * sin t + a2 * sin (2 * t) + a3 * sin (3 * t) + a4 * sin (4 * t) in
  heard [a0; a1; a2; a3; a4] k = sqrt (y ^ 2 + z ^ 2).
Proof.
  intros t y z. unfold heard, magnitude. cbn [length sum_n nth INR]. f_equal.
  assert (A : forall m, 2 * PI * (k * (1 + 1 + 1 + 1 + 1 + 1) / (1 + 1 + 1 + 1 + 1)) * m = m * t) by (intros m; unfold t; field).
  rewrite !A. rewrite !Rmult_0_l, cos_0, sin_0, !Rmult_1_l.
  replace (1 + 1) with 2 by ring. replace (2 + 1) with 3 by ring. replace (3 + 1) with 4 by ring.
  unfold y, z. ring.
Qed.

Lemma multiples t : cos (2 * t) = 2 * cos t ^ 2 - 1 /\ sin (2 * t) = 2 * sin t * cos t /\
  cos (3 * t) = 4 * cos t ^ 3 - 3 * cos t /\ sin (3 * t) = sin t * (4 * cos t ^ 2 - 1) /\
  cos (4 * t) = 8 * cos t ^ 4 - 8 * cos t ^ 2 + 1 /\ sin (4 * t) = sin t * (8 * cos t ^ 3 - 4 * cos t).
Proof.
  pose proof (sin2_cos2 t) as Q. unfold Rsqr in Q.
  assert (C2 : cos (2 * t) = 2 * cos t ^ 2 - 1) by (rewrite cos_2a_cos; ring).
  assert (S2 : sin (2 * t) = 2 * sin t * cos t) by (rewrite sin_2a; ring).
  assert (C3 : cos (3 * t) = 4 * cos t ^ 3 - 3 * cos t).
  { replace (3 * t) with (t + 2 * t) by ring. rewrite cos_plus, C2, S2.
    replace (sin t * (2 * sin t * cos t)) with (2 * (sin t * sin t) * cos t) by ring. replace (sin t * sin t) with (1 - cos t * cos t) by lra. ring. }
  assert (S3 : sin (3 * t) = sin t * (4 * cos t ^ 2 - 1)).
  { replace (3 * t) with (t + 2 * t) by ring. rewrite sin_plus, C2, S2. ring. }
  split; [exact C2|]. split; [exact S2|]. split; [exact C3|]. split; [exact S3|].
  replace (4 * t) with (2 * (2 * t)) by ring. rewrite cos_2a_cos, sin_2a, C2, S2. split; ring.
Qed.

Definition slope_data : list R := [1; 1; 2; 0; -2].
Definition valley_data : list R := [2; 0; 0; -1; -1].

Lemma slope_heard k : 0 <= 2 * slope_poly (cos (12 * PI * k / 5)) /\ heard slope_data k = sqrt (2 * slope_poly (cos (12 * PI * k / 5))).
Proof.
  set (t := 12 * PI * k / 5). destruct (multiples t) as (C2 & S2 & C3 & S3 & C4 & S4). pose proof (sin2_cos2 t) as Q. unfold Rsqr in Q.
  unfold slope_data. rewrite heard5. fold t. rewrite C2, S2, C3, S3, C4, S4.
  match goal with |- _ /\ sqrt (?y ^ 2 + ?z ^ 2) = _ => assert (E : y ^ 2 + z ^ 2 = 2 * slope_poly (cos t)); [|rewrite <- E; split; [apply Rplus_le_le_0_compat; apply pow2_ge_0|reflexivity]] end.
  set (c := cos t) in *. set (s := sin t) in *.
  match goal with |- ?y ^ 2 + ?z ^ 2 = _ => replace (z ^ 2) with ((s * s) * (1 + 2 * (2 * c) - 2 * (8 * c ^ 3 - 4 * c)) ^ 2) by ring end.
  replace (s * s) with (1 - c * c) by lra. unfold slope_poly. ring.
Qed.

Lemma valley_heard k : 0 <= 2 * valley_poly (cos (12 * PI * k / 5)) /\ heard valley_data k = sqrt (2 * valley_poly (cos (12 * PI * k / 5))).
Proof.
  set (t := 12 * PI * k / 5). destruct (multiples t) as (C2 & S2 & C3 & S3 & C4 & S4). pose proof (sin2_cos2 t) as Q. unfold Rsqr in Q.
  unfold valley_data. rewrite heard5. fold t. rewrite C2, S2, C3, S3, C4, S4.
  match goal with |- _ /\ sqrt (?y ^ 2 + ?z ^ 2) = _ => assert (E : y ^ 2 + z ^ 2 = 2 * valley_poly (cos t)); [|rewrite <- E; split; [apply Rplus_le_le_0_compat; apply pow2_ge_0|reflexivity]] end.
  set (c := cos t) in *. set (s := sin t) in *.
  match goal with |- ?y ^ 2 + ?z ^ 2 = _ => replace (z ^ 2) with ((s * s) * (- (4 * c ^ 2 - 1) - (8 * c ^ 3 - 4 * c)) ^ 2) by ring end.
  replace (s * s) with (1 - c * c) by lra. unfold valley_poly. ring.
Qed.

Lemma angles : 12 * PI * 0 / 5 = 0 /\ 12 * PI * (1 / 12) / 5 = PI / 5 /\ 12 * PI * (1 / 6) / 5 = 2 * PI / 5 /\
  12 * PI * (1 / 4) / 5 = 3 * PI / 5 /\ 12 * PI * (1 / 3) / 5 = 4 * PI / 5.
Proof. repeat split; field. Qed.

Lemma valley_values :
  let f := heard valley_data in f 0 < f (1 / 4) < f (1 / 3) /\ f (1 / 3) < f (1 / 6) /\ 2 * f (1 / 4) < f (1 / 6).
Proof.
  intros f. destruct fifth as (F & B). destruct fifth_values as (V1 & V3 & V4). destruct angles as (A0 & A1 & A2 & A3 & A4).
  set (c := cos (2 * PI / 5)) in *.
  destruct (valley_heard 0) as (P0 & E0). destruct (valley_heard (1 / 6)) as (P1 & E1). destruct (valley_heard (1 / 4)) as (P2 & E2). destruct (valley_heard (1 / 3)) as (P3 & E3).
  rewrite A0, cos_0 in *. rewrite A2 in *. rewrite A3, V3 in *. rewrite A4, V4 in *. fold c in E1, P1. unfold f. rewrite E0, E1, E2, E3.
  assert (L : forall x y, 0 <= x -> x < y -> sqrt x < sqrt y) by (intros; apply sqrt_lt_1_alt; lra).
  assert (c2 : c ^ 2 = (1 - 2 * c) / 4) by nra. assert (c3 : c ^ 3 = (4 * c - 1) / 8) by (replace (c ^ 3) with (c * c ^ 2) by ring; rewrite c2; nra).
  assert (c4 : c ^ 4 = (2 - 6 * c) / 16) by (replace (c ^ 4) with (c * c ^ 3) by ring; rewrite c3; nra).
  assert (G0 : valley_poly 1 = 0) by (unfold valley_poly; ring).
  assert (G1 : valley_poly c = 4 + c) by (unfold valley_poly; rewrite c2, c3, c4; field).
  assert (G2 : valley_poly (- c) = 2 - 5 * c).
  { unfold valley_poly. replace ((- c) ^ 2) with (c ^ 2) by ring. replace ((- c) ^ 3) with (- c ^ 3) by ring. replace ((- c) ^ 4) with (c ^ 4) by ring.
    rewrite c2, c3, c4. field. }
  assert (G3 : valley_poly (- (1 / 2 + c)) = 7 / 2 - c).
  { unfold valley_poly. replace ((- (1 / 2 + c)) ^ 2) with (1 / 4 + c + c ^ 2) by field.
    replace ((- (1 / 2 + c)) ^ 3) with (- (1 / 8 + 3 / 4 * c + 3 / 2 * c ^ 2 + c ^ 3)) by field.
    replace ((- (1 / 2 + c)) ^ 4) with (1 / 16 + 1 / 2 * c + 3 / 2 * c ^ 2 + 2 * c ^ 3 + c ^ 4) by field. rewrite c2, c3, c4. field. }
  rewrite G0, G1, G2, G3. split; [split; apply L; lra|]. split; [apply L; lra|].
  replace 2 with (sqrt (2 * 2)) at 1 by (apply sqrt_square; lra). rewrite <- sqrt_mult by lra. apply L; lra.
Qed.

(** A valley next to a peak: the tune reported is the bottom of the valley.  With a tolerance of
    0.1, the samples 2, 0, 0, -1, -1 have the tune 1/4, where the transform is less than half of
    what it is at 1/6, the highest point of the fast transform. *)
Lemma find_here x r : find_index x (x :: r) = Some 0%nat.
Proof. cbn [find_index]. destruct (Req_EM_T x x); [reflexivity|contradiction]. Qed.
Lemma find_there x y r : y <> x -> find_index x (y :: r) = option_map S (find_index x r).
Proof. intros H. cbn [find_index]. destruct (Req_EM_T y x); [contradiction|reflexivity]. Qed.
Lemma yes x y : x < y -> rltb x y = true.
Proof. intros H. unfold rltb. destruct (Rlt_dec x y); [reflexivity|contradiction]. Qed.
Lemma no x y : y <= x -> rltb x y = false.
Proof. intros H. unfold rltb. destruct (Rlt_dec x y); [lra|reflexivity]. Qed.

Lemma refine_valley f fuel g : g = (1 / 6 + 1 / 3) / 2 -> f 0 < f g -> f g < f (1 / 3) -> f (1 / 3) < f (1 / 6) ->
  refine f (1 / 10) (S (S fuel)) [0; 1 / 6; 1 / 3] [f 0; f (1 / 6); f (1 / 3)] (1 / 6) =
    (([0; 1 / 6; g; 1 / 3], [f 0; f (1 / 6); f g; f (1 / 3)]), inr g).
Proof.
  intros Hg A B C.
  assert (R1 : forall n, refine f (1 / 10) (S n) [0; 1 / 6; g; 1 / 3] [f 0; f (1 / 6); f g; f (1 / 3)] (1 / 6) =
                          (([0; 1 / 6; g; 1 / 3], [f 0; f (1 / 6); f g; f (1 / 3)]), inr (1 / 6))).
  { intros n. cbn [refine]. rewrite find_there, find_here by lra. cbn [option_map length Nat.add Nat.eqb before nth].
    rewrite (yes (f 0) (f g)) by lra. rewrite Rabs_right by lra. rewrite (yes (g - 1 / 6)) by lra. reflexivity. }
  assert (R2 : forall n, refine f (1 / 10) (S n) [0; 1 / 6; g; 1 / 3] [f 0; f (1 / 6); f g; f (1 / 3)] (1 / 3) =
                          (([0; 1 / 6; g; 1 / 3], [f 0; f (1 / 6); f g; f (1 / 3)]), inr g)).
  { intros n. cbn [refine]. rewrite !find_there, find_here by lra. cbn [option_map length Nat.add Nat.sub Nat.eqb before nth].
    rewrite (no (f (1 / 6)) (f (1 / 3))) by lra. rewrite Rabs_right by lra. rewrite (yes (g - 1 / 6)) by lra. reflexivity. }
  remember (S fuel) as n eqn:Hn. cbn [refine]. rewrite find_there, find_here by lra. cbn [option_map length Nat.add Nat.eqb before nth].
  rewrite (yes (f 0) (f (1 / 3))) by lra. rewrite Rabs_right by lra. rewrite (no (1 / 3 - 1 / 6)) by lra. rewrite <- Hg.
  rewrite (no (f (1 / 6)) (f g)) by lra. cbn [andb]. rewrite (yes (f g) (f (1 / 6))), (yes (f g) (f (1 / 3))) by lra. cbn [andb].
  unfold insert_at. cbn [firstn skipn app].
  rewrite find_there, find_here by lra. cbn [option_map nth]. subst n. rewrite R1. rewrite !find_there, find_here by lra. cbn [option_map nth].
  apply R2.
Qed.

Lemma freq5 : freq 5 = [0; 1 / 6; 1 / 3].
Proof. unfold freq. cbn [Nat.add Nat.div Nat.divmod fst seq map INR]. repeat (f_equal; try field). Qed.

Lemma get_tune_five u fuel tol : length u = 5%nat -> heard u 0 < heard u (1 / 6) -> heard u (1 / 3) < heard u (1 / 6) ->
  get_tune dft default_finder false fuel (Some tol) (new_tune (Some u) None) =
  answer (if rltb tol (1 / 3) then
            and_then (refine_peaks false u tol fuel 1 0
              (mkTune (Some u) None (Some (1 / 6)) [1 / 6] [sft false u (1 / 6)] [0; 1 / 6; 1 / 3] [sft false u 0; sft false u (1 / 6); sft false u (1 / 3)])) get_max_peak
          else (mkTune (Some u) None (Some (1 / 6)) [1 / 6] [sft false u (1 / 6)] [0; 1 / 6; 1 / 3] [sft false u 0; sft false u (1 / 6); sft false u (1 / 3)], None)).
Proof.
  intros L A B. assert (Hu : u <> []) by (intros ->; discriminate). assert (E : Nat.even (length u) = false) by (rewrite L; reflexivity).
  assert (HS : forall k, heard u k = sft false u k) by (intros k; rewrite sft_magnitude by auto; reflexivity).
  destruct (get_tune_start dft default_finder false fuel tol (new_tune (Some u) None) u [1%nat] dft_ok) as (ps & j & PD & PS & G & J1 & (p & J2 & J3) & _); auto.
  { rewrite <- spectrum_sft by auto. rewrite spectrum5 by auto. apply three_peaks; auto. }
  { repeat constructor. auto. }
  { intros i [<-|[]]. rewrite L. cbn. lia. }
  { exists 1%nat. split; [left; auto|discriminate]. }
  assert (ps = [1%nat]).
  { destruct ps as [|a ps]; [exfalso; apply (PS 1%nat); split; [left; auto|discriminate]|].
    assert (A1 : forall i, In i (a :: ps) -> i = 1%nat) by (intros i Hi; destruct (proj1 (PS i) Hi) as ([<-|[]] & _); auto).
    rewrite (A1 a) by (left; auto). f_equal. destruct ps as [|b ps]; auto. exfalso. inversion PD as [|x y Z _]. apply Z.
    rewrite (A1 a), (A1 b) by (cbn; auto). left. reflexivity. }
  subst ps. rewrite G. clear G. rewrite L, freq5 in *. cbn [length map nth new_tune t_up] in *. destruct J2 as [<-|[]]. cbn [nth] in J3. rewrite <- !HS in J3.
  assert (j = 1%nat) by (destruct j as [|[|[|j]]]; cbn [nth] in *; try reflexivity; try (exfalso; lra); lia). subst j.
  replace (1 / INR 3) with (1 / 3) by (cbn [INR]; field). reflexivity.
Qed.

Theorem C74_valley_refuted fuel :
  let u := valley_data in
  exists t, snd (get_tune dft default_finder false (S (S fuel)) (Some (1 / 10)) (new_tune (Some u) None)) = inr t /\
    t = 1 / 4 /\ 2 * heard u t < heard u (1 / 6).
Proof.
  intros u. destruct valley_values as ((V1 & V2) & V3 & V4). fold u in V1, V2, V3, V4.
  assert (HS : forall k, heard u k = sft false u k) by (intros k; rewrite sft_magnitude by discriminate; reflexivity).
  exists ((1 / 6 + 1 / 3) / 2). assert (Q : (1 / 6 + 1 / 3) / 2 = 1 / 4) by field.
  rewrite get_tune_five by (reflexivity || lra). rewrite (yes (1 / 10) (1 / 3)) by lra.
  split; [|split; [exact Q|rewrite Q; exact V4]]. rewrite !HS in V1, V2, V3. rewrite <- Q in V1, V2.
  set (g := (1 / 6 + 1 / 3) / 2) in *.
  cbn [refine_peaks t_k_x t_k_y t_peak_x t_peak_y t_u t_up t_tune nth].
  rewrite (refine_valley (sft false u) fuel g) by (reflexivity || lra).
  rewrite !find_there, find_here by lra. cbn [option_map set_nth and_then nth].
  unfold get_max_peak. cbn [forallb t_k_x t_k_y t_peak_x t_peak_y t_u t_up t_tune map]. rewrite !find_there, find_here by lra. cbn [option_map andb nth max_list fold_left].
  rewrite !find_there, find_here by lra. cbn [option_map answer t_tune snd nth]. reflexivity.
Qed.
Print Assumptions C74_valley_refuted.

(** A peak that is not symmetric: whatever the tolerance, the samples 1, 1, 2, 0, -2 have the tune
    1/6, though the transform is higher at every point from 1/12 to 1/6. *)
Lemma slope_up x y : - (31 / 100) <= x -> x < y -> y <= 31 / 100 -> slope_poly x < slope_poly y.
Proof.
  intros A B C. unfold slope_poly.
  assert (E : 5 + 9 * y + 12 * y ^ 2 - 8 * y ^ 3 - 16 * y ^ 4 - (5 + 9 * x + 12 * x ^ 2 - 8 * x ^ 3 - 16 * x ^ 4) =
              (y - x) * (9 + 12 * (x + y) - 8 * (x ^ 2 + x * y + y ^ 2) - 16 * (x + y) * (x ^ 2 + y ^ 2))) by ring.
  assert (P : 0 < 9 + 12 * (x + y) - 8 * (x ^ 2 + x * y + y ^ 2) - 16 * (x + y) * (x ^ 2 + y ^ 2)).
  { set (s := x + y). set (q := x ^ 2 + y ^ 2).
    replace (x ^ 2 + x * y + y ^ 2) with (q / 2 + s ^ 2 / 2) by (unfold q, s; field).
    assert (Q1 : q <= 2 * (31 / 100) ^ 2) by (unfold q; nra). assert (Q2 : s ^ 2 / 2 <= q) by (unfold q, s; nra).
    assert (S1 : - (62 / 100) <= s <= 62 / 100) by (unfold s; lra). clearbody s q. clear E A B C.
    destruct (Rle_lt_dec 0 s).
    - nra.
    - destruct (Rle_lt_dec (-4 - 16 * s) 0).
      + assert ((-4 - 16 * s) * (2 * (31 / 100) ^ 2) <= (-4 - 16 * s) * q) by nra. nra.
      + assert ((-4 - 16 * s) * (s ^ 2 / 2) <= (-4 - 16 * s) * q) by nra.
        assert (0 < 9 + 12 * s - 6 * s ^ 2 - 8 * s ^ 3) by nra. nra. }
  nra.
Qed.

Lemma slope_values :
  let f := heard slope_data in
  (forall k, 1 / 12 <= k < 1 / 6 -> f (1 / 6) < f k) /\
  (forall k, let x := fun k => 1 / 6 + (1 / 3 - 1 / 6) / 2 ^ k in f 0 < f (x k) < f (1 / 6) /\ f (x k) <= f (x (S k))).
Proof.
  intros f. destruct fifth as (F & B). destruct fifth_values as (V1 & V3 & V4). destruct angles as (A0 & A1 & A2 & A3 & A4).
  pose proof PI_RGT_0 as Pp.
  assert (L : forall k k', slope_poly (cos (12 * PI * k / 5)) < slope_poly (cos (12 * PI * k' / 5)) -> f k < f k').
  { intros k k' H. unfold f. destruct (slope_heard k) as (P & ->). destruct (slope_heard k') as (_ & ->). apply sqrt_lt_1_alt. lra. }
  set (c := cos (2 * PI / 5)) in *.
  assert (Cd : forall k k', 0 <= k -> k < k' -> k' <= 5 / 12 -> cos (12 * PI * k' / 5) < cos (12 * PI * k / 5)).
  { intros k k' H1 H2 H3. apply cos_decreasing_1; nra. }
  split.
  - intros k (H1 & H2). apply L. rewrite A2. fold c. set (x := cos (12 * PI * k / 5)).
    assert (X1 : c < x). { unfold x, c. rewrite <- A2. apply Cd; lra. }
    assert (X2 : x <= 1 / 2 + c).
    { destruct H1 as [H1|H1]; [|unfold x; rewrite <- H1, A1, V1; lra]. rewrite <- V1, <- A1. left. apply Cd; lra. }
    clearbody x c. clear - F B X1 X2. unfold slope_poly.
    assert (E : 5 + 9 * x + 12 * x ^ 2 - 8 * x ^ 3 - 16 * x ^ 4 - (5 + 9 * c + 12 * c ^ 2 - 8 * c ^ 3 - 16 * c ^ 4) =
                (x - c) * (9 + 12 * (x + c) - 8 * (x ^ 2 + x * c + c ^ 2) - 16 * (x + c) * (x ^ 2 + c ^ 2))) by ring.
    assert (P : 0 < 9 + 12 * (x + c) - 8 * (x ^ 2 + x * c + c ^ 2) - 16 * (x + c) * (x ^ 2 + c ^ 2)).
    { assert (c2 : c ^ 2 = (1 - 2 * c) / 4) by nra. assert (c3 : c ^ 3 = (4 * c - 1) / 8) by (replace (c ^ 3) with (c * c ^ 2) by ring; rewrite c2; nra).
      replace (9 + 12 * (x + c) - 8 * (x ^ 2 + x * c + c ^ 2) - 16 * (x + c) * (x ^ 2 + c ^ 2))
        with (9 + 12 * c - 8 * c ^ 2 - 16 * c ^ 3 + x * (12 - 8 * c - 16 * c ^ 2) - x ^ 2 * (8 + 16 * c) - 16 * x ^ 3) by ring.
      rewrite c2, c3. assert (x2 : 0 < x ^ 2 <= 81 / 100 * x) by nra. assert (x3 : x ^ 3 <= 6561 / 10000 * x) by nra. nra. }
    nra.
  - assert (c2 : c ^ 2 = (1 - 2 * c) / 4) by nra. assert (c3 : c ^ 3 = (4 * c - 1) / 8) by (replace (c ^ 3) with (c * c ^ 2) by ring; rewrite c2; nra).
    assert (c4 : c ^ 4 = (2 - 6 * c) / 16) by (replace (c ^ 4) with (c * c ^ 3) by ring; rewrite c3; nra).
    assert (G1 : slope_poly c = 7 + 5 * c) by (unfold slope_poly; rewrite c2, c3, c4; field).
    assert (G2 : slope_poly (- c) = 5 - 5 * c).
    { unfold slope_poly. replace ((- c) ^ 2) with (c ^ 2) by ring. replace ((- c) ^ 3) with (- c ^ 3) by ring. replace ((- c) ^ 4) with (c ^ 4) by ring.
      rewrite c2, c3, c4. field. }
    assert (G3 : slope_poly (- (1 / 2 + c)) = 9 / 2 - 5 * c).
    { unfold slope_poly. replace ((- (1 / 2 + c)) ^ 2) with (1 / 4 + c + c ^ 2) by field.
      replace ((- (1 / 2 + c)) ^ 3) with (- (1 / 8 + 3 / 4 * c + 3 / 2 * c ^ 2 + c ^ 3)) by field.
      replace ((- (1 / 2 + c)) ^ 4) with (1 / 16 + 1 / 2 * c + 3 / 2 * c ^ 2 + 2 * c ^ 3 + c ^ 4) by field. rewrite c2, c3, c4. field. }
    assert (G0 : slope_poly 1 = 2) by (unfold slope_poly; ring).
    assert (P2 : forall k, 1 <= 2 ^ k) by (intros k; apply pow_R1_Rle; lra).
    intros k x. assert (X1 : forall k, 1 / 6 < x k).
    { intros m. unfold x. specialize (P2 m). assert (0 < (1 / 3 - 1 / 6) / 2 ^ m); [|lra]. apply Rmult_lt_0_compat; [lra|apply Rinv_0_lt_compat; lra]. }
    assert (X2 : forall k, x (S k) - 1 / 6 = (x k - 1 / 6) / 2).
    { intros m. unfold x. cbn [pow]. specialize (P2 m). field. lra. }
    assert (X0 : x 0%nat = 1 / 3) by (unfold x; cbn [pow]; field).
    assert (X3 : forall k, x (S k) <= 1 / 4).
    { intros m. induction m as [|m IH]; [specialize (X2 0%nat); rewrite X0 in X2; lra|]. specialize (X2 (S m)). lra. }
    assert (Cb : forall k, - c <= cos (12 * PI * x (S k) / 5) < c).
    { intros m. specialize (X1 (S m)). specialize (X3 m). split.
      - rewrite <- V3, <- A3. destruct X3 as [H|H]; [left; apply Cd; lra|rewrite H; lra].
      - unfold c. rewrite <- A2. apply Cd; lra. }
    assert (Lo : forall k, f 0 < f (x k)).
    { intros m. apply L. rewrite A0, cos_0, G0. destruct m as [|m].
      - rewrite X0, A4, V4, G3. lra.
      - specialize (Cb m). destruct (Rle_lt_or_eq_dec _ _ (proj1 Cb)) as [H|H]; [|rewrite <- H; rewrite G2; lra].
        assert (slope_poly (- c) < slope_poly (cos (12 * PI * x (S m) / 5))) by (apply slope_up; lra). lra. }
    split; [split|].
    + apply Lo.
    + apply L. rewrite A2. fold c. destruct k as [|m]; [rewrite X0, A4, V4, G3, G1; lra|].
      specialize (Cb m). apply slope_up; lra.
    + left. apply L. destruct k as [|m].
      * rewrite X0, A4, V4, G3. assert (E : x 1%nat = 1 / 4) by (specialize (X2 0%nat); rewrite X0 in X2; lra). rewrite E, A3, V3, G2. lra.
      * pose proof (Cb m). pose proof (Cb (S m)). apply slope_up; try lra. apply Cd; try lra.
        -- specialize (X1 (S (S m))). lra.
        -- specialize (X1 (S m)). specialize (X2 (S m)). lra.
        -- specialize (X3 m). lra.
Qed.

Theorem C74_slope_refuted tol fuel :
  let u := slope_data in
  0 < tol -> 1 / 6 < tol * 2 ^ fuel ->
  snd (get_tune dft default_finder false (S fuel) (Some tol) (new_tune (Some u) None)) = inr (1 / 6) /\
  forall k, 1 / 12 <= k < 1 / 6 -> heard u (1 / 6) < heard u k.
Proof.
  intros u T0 Hf. destruct slope_values as (V1 & V2). fold u in V1, V2. split; [|exact V1].
  assert (HS : forall k, heard u k = sft false u k) by (intros k; rewrite sft_magnitude by discriminate; reflexivity).
  assert (A : heard u 0 < heard u (1 / 3) < heard u (1 / 6)).
  { destruct (V2 0%nat) as (H & _). cbv zeta beta in H. cbn [pow] in H. replace (1 / 6 + (1 / 3 - 1 / 6) / 1) with (1 / 3) in H by field. exact H. }
  rewrite get_tune_five by (reflexivity || lra).
  destruct (rltb tol (1 / 3)) eqn:Tt; [|reflexivity].
  assert (Inc : increasing_R [0; 1 / 6; 1 / 3]) by (rewrite <- freq5; apply freq_increasing).
  destruct (refine_slope (sft false u) tol T0 fuel [0; 1 / 6; 1 / 3] 1 Inc) as (g & R1 & Q1 & Q2 & Q3); try (cbn; lia).
  { intros k. cbn [Nat.sub Nat.add nth]. cbv zeta. rewrite <- !HS. apply (V2 k). }
  { cbn [nth Nat.add]. lra. }
  cbn [nth map] in R1. cbn [refine_peaks t_k_x t_k_y t_peak_x t_peak_y t_u t_up t_tune nth]. rewrite R1.
  pose proof (Q3 0%nat ltac:(lia)) as G0. pose proof (Q3 1%nat ltac:(lia)) as G1. cbn [nth] in G0, G1.
  destruct g as [|x [|y g]]; cbn [length] in Q2; try lia. cbn [nth] in G0, G1. subst x y.
  rewrite find_there, find_here by lra. cbn [option_map set_nth and_then nth map].
  unfold get_max_peak. cbn [forallb t_k_x t_k_y t_peak_x t_peak_y t_u t_up t_tune map]. rewrite find_there, find_here by lra. cbn [option_map andb nth max_list fold_left].
  rewrite !HS in A. rewrite find_there, find_here by lra. cbn [option_map answer t_tune snd nth]. reflexivity.
Qed.
Print Assumptions C74_slope_refuted.

(** "Refinement keeps the frequencies sorted" is refuted: the neighbour before the first frequency is
    taken to be the last one (k_y[-1]). *)
Theorem C74_sorted_refuted :
  exists (f : R -> R) tol grid grid' t, increasing_R grid /\ 0 < tol /\
    (forall fuel, refine f tol (S (S fuel)) grid (map f grid) 1 = ((grid', map f grid'), inr t)) /\ ~ increasing_R grid'.
Proof.
  exists (fun x => 1 + 5 * x - 4 * x * x), (3 / 4), [0; 1], [1 / 2; 0; 1], (1 / 2). split; [|split; [lra|split]].
  - intros [|[|i]] [|[|j]] H; cbn in *; try lia; lra.
  - intros fuel. set (n := fuel). cbn [refine map]. rewrite find_there, find_here by lra. cbn [option_map length Nat.add Nat.sub Nat.eqb before last nth].
    rewrite no by lra. cbv beta iota zeta. replace ((1 + 0) / 2) with (1 / 2) by field.
    replace (Rabs (0 - 1)) with 1 by (rewrite Rabs_left; lra). rewrite no by lra. unfold insert_at. cbn [firstn skipn app nth].
    rewrite !yes by lra. cbn [andb]. cbn [refine]. rewrite find_here. cbn [option_map length Nat.add Nat.sub Nat.eqb before last nth].
    rewrite no by lra. cbv beta iota zeta. replace (Rabs (1 / 2 - 1)) with (1 / 2) by (rewrite Rabs_left; lra). rewrite yes by lra. reflexivity.
  - intros I. specialize (I 0%nat 1%nat). cbn in I. assert (1 / 2 < 0) by (apply I; lia). lra.
Qed.
Print Assumptions C74_sorted_refuted.

(** ---- the hits tracked ---- *)
Theorem C74_tracking hits l st :
  t_u (run_tracking hits None st) = Some (map fst hits) /\ t_up (run_tracking hits None st) = Some (map snd hits) /\
  (increasing l -> (forall i, In i l -> (i < length hits)%nat) ->
     t_u (run_tracking hits (Some l) st) = Some (map (fun i => fst (nth i hits (0, 0))) l) /\
     t_up (run_tracking hits (Some l) st) = Some (map (fun i => snd (nth i hits (0, 0))) l)).
Proof.
  split; [reflexivity|]. split; [reflexivity|]. intros I B. cbn [run_tracking t_u t_up].
  assert (K : forall hs s l, increasing l -> (forall i, In i l -> (s <= i < s + length hs)%nat) ->
    map snd (filter (fun ih : nat * (R * R) => existsb (Nat.eqb (fst ih)) l) (combine (seq s (length hs)) hs)) =
    map (fun i => nth (i - s) hs (0, 0)) l).
  { induction hs as [|h hs IH]; intros s m Im Bm.
    - destruct m as [|i m]; [reflexivity|]. specialize (Bm i (or_introl eq_refl)). cbn in Bm. lia.
    - cbn [length seq combine filter fst]. destruct m as [|i m].
      + assert (E : increasing []) by constructor. specialize (IH (S s) [] E (fun i Z => match Z with end)). cbn [existsb] in IH |- *. exact IH.
      + inversion Im as [|? ? Im' Fm]; subst. rewrite Forall_forall in Fm. pose proof (Bm i (or_introl eq_refl)) as Bi. cbn [length] in Bi.
        destruct (Nat.eq_dec i s) as [-> |Ne].
        * cbn [existsb]. rewrite Nat.eqb_refl. cbn [orb map snd]. rewrite Nat.sub_diag. cbn [nth]. f_equal.
          transitivity (map snd (filter (fun ih : nat * (R * R) => existsb (Nat.eqb (fst ih)) m) (combine (seq (S s) (length hs)) hs))).
          -- f_equal. apply filter_ext_in. intros (k, x) Hk. apply in_combine_l in Hk. apply in_seq in Hk. cbn [fst existsb].
             destruct (Nat.eqb_spec k s); [lia|reflexivity].
          -- rewrite IH; [|auto|].
             ++ apply map_ext_in. intros k Hk. specialize (Fm k Hk). replace (k - s)%nat with (S (k - S s)) by lia. reflexivity.
             ++ intros k Hk. specialize (Fm k Hk). specialize (Bm k (or_intror Hk)). cbn [length] in Bm. lia.
        * replace (existsb (Nat.eqb s) (i :: m)) with false.
          -- rewrite IH; [|auto|].
             ++ apply map_ext_in. intros k Hk. assert (s < k)%nat by (destruct Hk as [<-|Hk]; [lia|specialize (Fm k Hk); lia]).
                replace (k - s)%nat with (S (k - S s)) by lia. reflexivity.
             ++ intros k Hk. pose proof (Bm k Hk) as Bk. cbn [length] in Bk. assert (s < k)%nat by (destruct Hk as [<-|Hk]; [lia|specialize (Fm k Hk); lia]). lia.
          -- symmetry. apply not_true_iff_false. intros Z. apply existsb_exists in Z. destruct Z as (k & Hk & Ek). apply Nat.eqb_eq in Ek. subst k.
             destruct Hk as [Hk|Hk]; [lia|specialize (Fm s Hk); lia]. }
  rewrite (K hits 0%nat l); auto.
  - rewrite !map_map. split; f_equal; apply map_ext; intros i; rewrite Nat.sub_0_r; reflexivity.
  - intros i Hi. specialize (B i Hi). lia.
Qed.
Print Assumptions C74_tracking.

Example C74_tracking_ex st : t_u (run_tracking [(1, 2); (3, 4); (5, 6)] (Some [0; 2]%nat) st) = Some [1; 5].
Proof. reflexivity. Qed.
