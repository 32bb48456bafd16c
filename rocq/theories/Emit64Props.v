(** Property C100: emittance and Twiss parameters in double precision. *)
From Coq Require Import Reals ZArith Bool String List Lia Lra Psatz.
From Flocq Require Import Core BinarySingleNaN.
From Verif Require Import FloatProps.
From Verif Require Import Num WeightModel HitcoreModel PyLibModel HitPyModel BunchModel MomentModel EllipseModel FloatModel MomentSpec FloatArith FloatSpec
  Bin64Model Bin64Spec Bin64Proofs Bin64Props Shell64Model Shell64Spec Shell64Proofs Shell64Props Derive64Model Derive64Proofs Linear64Model
  Linear64Spec Linear64Proofs Linear64Props Emit64Model Emit64Spec Emit64Proofs.
Import ListNotations.
Open Scope string_scope.
Open Scope list_scope.
Open Scope R_scope.

(** ---- the covariance matrix of two variables ---- *)
Section Shape.
  Variable extra : World64 -> list nat -> string -> nat -> option (PyVal B64Num).
  Variable (w : World64) (b : Bunch).
  Notation mom := (moment extra no_fixed w b).
  Notation light := (@nltb B64Num (nabs (bunch_weight w b)) weight_tol).

  Lemma mean_one v : mean extra no_fixed w b [v] =
    match moment_about extra no_fixed w b [v] [(v, PFloat n0)] with inr m => inr [(v, PFloat m)] | inl e => inl e end.
  Proof. unfold mean. cbn [mean_loop assoc f_means no_fixed app]. destruct (moment_about _ _ _ _ _ _); reflexivity. Qed.
  Lemma mean_same v : mean extra no_fixed w b [v; v] = mean extra no_fixed w b [v].
  Proof.
    unfold mean. cbn [mean_loop assoc f_means no_fixed app]. destruct (moment_about _ _ _ _ _ _); [reflexivity|].
    cbn [assoc app]. rewrite String.eqb_refl. reflexivity.
  Qed.
  Lemma mean_two u v mu mv : u <> v -> mean extra no_fixed w b [u] = inr [(u, PFloat mu)] -> mean extra no_fixed w b [v] = inr [(v, PFloat mv)] ->
    mean extra no_fixed w b [u; v] = inr [(u, PFloat mu); (v, PFloat mv)].
  Proof.
    intros N. rewrite !mean_one. unfold mean. cbn [mean_loop assoc f_means no_fixed app].
    destruct (moment_about extra no_fixed w b [u] _) as [?|x]; [discriminate|]. destruct (moment_about extra no_fixed w b [v] _) as [?|y]; [discriminate|].
    intros A B. injection A as <-. injection B as <-. cbn [assoc]. apply String.eqb_neq in N. rewrite N. reflexivity.
  Qed.

  (** Only the means of the variables matter. *)
  Lemma about_same u v mu mv x : u <> v -> x = u \/ x = v ->
    moment_about extra no_fixed w b [x; x] [(u, PFloat mu); (v, PFloat mv)] =
    moment_about extra no_fixed w b [x; x] [(x, PFloat (if String.eqb u x then mu else mv))].
  Proof.
    intros N H. apply String.eqb_neq in N. unfold moment_about. destruct light; [reflexivity|]. cbn [fixed_cov f_covs no_fixed].
    change (float_map [(u, PFloat mu); (v, PFloat mv)]) with (Some [(u, mu); (v, mv)]).
    change (float_map [(x, PFloat (if String.eqb u x then mu else mv))]) with (Some [(x, if String.eqb u x then mu else mv)]).
    cbv beta iota.
    assert (C : forall core, core_moment w core [x; x] [(u, mu); (v, mv)] = core_moment w core [x; x] [(x, if String.eqb u x then mu else mv)]).
    { intros core. unfold core_moment. destruct (all_some _); [|reflexivity]. cbn [map]. unfold map_get. cbn [assoc].
      destruct H as [-> | ->]; rewrite ?N, ?String.eqb_refl; reflexivity. }
    rewrite C. destruct (core_moment _ _ _ _); [reflexivity|]. unfold py_moment. cbn [map assoc].
    destruct H as [-> | ->]; rewrite ?N, ?String.eqb_refl; reflexivity.
  Qed.

  Lemma moments_shape u v (a c d : b64) : u <> v ->
    mom [u; u] [] = inr a -> mom [u; v] [] = inr c -> mom [v; v] [] = inr d ->
    covariance_matrix extra no_fixed w b [u; v] [] = inr [[a; c]; [c; d]] /\
    variance64 extra w b u = inr a /\ cov64 extra w b u v = inr c /\ variance64 extra w b v = inr d.
  Proof.
    intros N A C D. unfold moment in A, C, D. destruct light eqn:L; [discriminate|]. cbn [fixed_cov f_covs no_fixed] in A, C, D.
    rewrite mean_same in A, D.
    destruct (mean extra no_fixed w b [u]) as [?|du] eqn:Mu; [discriminate|]. destruct (mean extra no_fixed w b [v]) as [?|dv] eqn:Mv; [discriminate|].
    assert (Eu : exists mu, du = [(u, PFloat mu)]) by (clear - Mu; rewrite mean_one in Mu; destruct (moment_about _ _ _ _ _ _); [discriminate|]; injection Mu as <-; eauto).
    assert (Ev : exists mv, dv = [(v, PFloat mv)]) by (clear - Mv; rewrite mean_one in Mv; destruct (moment_about _ _ _ _ _ _); [discriminate|]; injection Mv as <-; eauto).
    destruct Eu as [mu ->]. destruct Ev as [mv ->]. pose proof (mean_two u v mu mv N Mu Mv) as Muv. rewrite Muv in C.
    assert (Tail : forall vars q r, length vars = 2%nat -> mom vars (q :: r) = moment_about extra no_fixed w b vars (q :: r)).
    { intros vars q r _. unfold moment. rewrite L. cbn [fixed_cov f_covs no_fixed]. reflexivity. }
    pose proof (about_same u v mu mv u N (or_introl eq_refl)) as Su. pose proof (about_same u v mu mv v N (or_intror eq_refl)) as Sv.
    pose proof N as N'. apply String.eqb_neq in N'. rewrite String.eqb_refl in Su. rewrite N' in Sv.
    split; [|split; [|split]].
    - unfold covariance_matrix. cbn [complete_origin assoc]. rewrite Mu. cbn [assoc app]. rewrite String.eqb_refl. cbn [assoc]. rewrite N', Mv. cbn [assoc].
      rewrite String.eqb_refl. cbn [app length seq map nth Nat.min Nat.max]. rewrite !Tail by reflexivity. rewrite Su, Sv, A, C, D. reflexivity.
    - unfold variance64. rewrite Mu. unfold bindE. rewrite Tail by reflexivity. exact A.
    - unfold cov64. rewrite Muv. unfold bindE. rewrite Tail by reflexivity. exact C.
    - unfold variance64. rewrite Mv. unfold bindE. rewrite Tail by reflexivity. exact D.
  Qed.
End Shape.

Lemma pairs_ok u v : In (u, v) pairs -> u <> v /\ momentum_variable u false = Some v /\ covariance_list [u] false = Some [u; v].
Proof. intros H. repeat (destruct H as [E|H]; [injection E as <- <-; repeat split; discriminate|]). destruct H. Qed.

Section Values.
  Variable det : Matrix64 -> b64.
  Variable pow : b64 -> b64 -> b64.
  Variable extra : World64 -> list nat -> string -> nat -> option (PyVal B64Num).
  Variable (w : World64) (b : Bunch) (u v : string) (a c d mass : b64).
  Hypothesis Huv : In (u, v) pairs.
  Hypothesis HA : moment extra no_fixed w b [u; u] [] = inr a.
  Hypothesis HC : moment extra no_fixed w b [u; v] [] = inr c.
  Hypothesis HD : moment extra no_fixed w b [v; v] [] = inr d.
  Hypothesis HM : first64 w b "mass" = inr mass.

  Lemma emittance_is : emittance64 det pow extra false w b [u] None = inr (fdiv (pow (det [[a; c]; [c; d]]) half64) mass).
  Proof.
    destruct (pairs_ok u v Huv) as (N & _ & L). destruct (moments_shape extra w b u v a c d N HA HC HD) as (M & _).
    unfold emittance64. rewrite L, M. unfold bindE. rewrite HM. reflexivity.
  Qed.

  Lemma beta_is e P y : emittance64 det pow extra false w b [u] None = inr e -> mean64 extra w b "p" = inr P ->
    div_py P (fmul (fmul e mass) (b64_of_Z 1)) = inr y -> beta64 det pow extra false w b [u] = inr (fmul (fadd fzero a) y).
  Proof.
    intros E HP Y. destruct (pairs_ok u v Huv) as (N & _ & L). destruct (moments_shape extra w b u v a c d N HA HC HD) as (_ & V & _).
    unfold beta64. rewrite E. unfold sum64, bindE. rewrite V, HP, HM. change (count64 [u]) with (b64_of_Z 1). rewrite Y. reflexivity.
  Qed.
  Lemma gamma_is e P g y : emittance64 det pow extra false w b [u] None = inr e -> mean64 extra w b "p" = inr P ->
    div_py (fadd fzero d) (fmul P mass) = inr g -> div_py g (fmul e (b64_of_Z 1)) = inr y -> gamma64 det pow extra false w b [u] = inr y.
  Proof.
    intros E HP G Y. destruct (pairs_ok u v Huv) as (N & L & _). destruct (moments_shape extra w b u v a c d N HA HC HD) as (_ & _ & _ & V).
    unfold gamma64. rewrite E. unfold sum64, bindE. rewrite L, V, HP, HM. change (count64 [u]) with (b64_of_Z 1). rewrite G. exact Y.
  Qed.
  Lemma alpha_is e y : emittance64 det pow extra false w b [u] None = inr e ->
    div_py (fadd fzero c) (fmul (fmul e mass) (b64_of_Z 1)) = inr y -> alpha64 det pow extra false w b [u] = inr (fopp y).
  Proof.
    intros E Y. destruct (pairs_ok u v Huv) as (N & L & _). destruct (moments_shape extra w b u v a c d N HA HC HD) as (_ & _ & V & _).
    unfold alpha64. rewrite E. unfold sum64, bindE. rewrite L, V, HM. change (count64 [u]) with (b64_of_Z 1). rewrite Y. reflexivity.
  Qed.
End Values.

(** ---------------------------------------------------------------- C100 *)

(** C100.  The emittance of one axis is the square root of the determinant of the covariances, divided by the mass, up
    to a few units of precision times how close to singular the covariances are. *)
Theorem C100_emittance :
  forall det pow extra (w : World64) (b : Bunch) (q p : string) (a c d mass : b64),
    good_det det -> good_root pow -> In (q, p) pairs ->
    moment extra no_fixed w b [q; q] [] = inr a -> moment extra no_fixed w b [q; p] [] = inr c ->
    moment extra no_fixed w b [p; p] [] = inr d -> first64 w b "mass" = inr mass ->
    usual a -> usual c -> usual d -> everyday mass -> 0 < value mass ->
    0 < value a * value d - value c * value c -> spread (value a) (value c) (value d) <= 2 ^ 40 ->
    exists e : b64, emittance64 det pow extra false w b [q] None = inr e /\ finite e = true /\
      let exact := sqrt (value a * value d - value c * value c) / value mass in
      Rabs (value e - exact) <= (8 * spread (value a) (value c) (value d) + 16) * unit * exact.
Proof.
  intros det pow extra w b q p a c d mass Gd Gr Hq HA HC HD HM Ua Uc Ud Em Pm PD HK.
  destruct (emit_value det pow Gd Gr a c d mass Ua Uc Ud Em Pm PD HK) as (F & t & Ht & V).
  eexists. split; [exact (emittance_is det pow extra w b q p a c d mass Hq HA HC HD HM)|]. split; [exact F|]. cbv zeta. rewrite V, unit_u.
  set (e0 := sqrt _ / _). assert (0 < e0) by (apply Rdiv_lt_0_compat; [apply sqrt_lt_R0, PD|exact Pm]).
  replace (e0 * (1 + t) - e0) with (e0 * t) by ring. rewrite Rabs_mult, (Rabs_right e0) by lra. rewrite Rmult_comm. apply Rmult_le_compat_r; [lra|exact Ht].
Qed.
Print Assumptions C100_emittance.

(** The numbers of a float or an exception, to compute with. *)
Definition right64 (e : MErr + b64) : b64 := match e with inr x => x | inl _ => B754_nan end.
Definition is_right (e : MErr + b64) : bool := match e with inr _ => true | inl _ => false end.
Lemma right_is e : is_right e = true -> e = inr (right64 e).
Proof. destruct e; [discriminate|reflexivity]. Qed.

(** Four hits: x = -1, 1, -1, 1 and px = -2, 0, 0, 2; the mass is 2. *)
Definition z64 (z : Z) : PyVal B64Num := @PFloat B64Num (b64_of_Z z).
Definition ex_emit : list (WOp B64Num) :=
  [ WNew; WNew; WNew; WNew ] ++
  flat_map (fun q : nat * Z * Z => let '(l, x, p) := q in
     [ WSet l "mass" (z64 2); WSet l "x" (z64 x); WSet l "px" (z64 p); WSet l "py" (z64 0); WSet l "pz" (z64 0) ])
    [ (0%nat, -1, -2); (1%nat, 1, 0); (2%nat, -1, 0); (3%nat, 1, 2) ]%Z.
Definition ex_four : Bunch := append (append (append (append bunch_new 0) 1) 2) 3.
Definition with_p : World64 -> list nat -> string -> nat -> option (PyVal B64Num) := extra_p plain.
Notation ex_m vars := (moment with_p no_fixed (wrun ex_emit) ex_four vars []).

Lemma ex_values :
  ex_m ["x"; "x"] = inr (right64 (ex_m ["x"; "x"])) /\ ex_m ["x"; "px"] = inr (right64 (ex_m ["x"; "px"])) /\
  ex_m ["px"; "px"] = inr (right64 (ex_m ["px"; "px"])) /\
  first64 (wrun ex_emit) ex_four "mass" = inr (right64 (first64 (wrun ex_emit) ex_four "mass")) /\
  mean64 with_p (wrun ex_emit) ex_four "p" = inr (right64 (mean64 with_p (wrun ex_emit) ex_four "p")).
Proof. repeat split; apply right_is; vm_compute; reflexivity. Qed.
Lemma ex_a : finite (right64 (ex_m ["x"; "x"])) = true /\ value (right64 (ex_m ["x"; "x"])) = 1.
Proof. split; [apply fin_SF; vm_compute; reflexivity|b64_val; lra]. Qed.
Lemma ex_c : finite (right64 (ex_m ["x"; "px"])) = true /\ value (right64 (ex_m ["x"; "px"])) = 1.
Proof. split; [apply fin_SF; vm_compute; reflexivity|b64_val; lra]. Qed.
Lemma ex_d : finite (right64 (ex_m ["px"; "px"])) = true /\ value (right64 (ex_m ["px"; "px"])) = 2.
Proof. split; [apply fin_SF; vm_compute; reflexivity|b64_val; lra]. Qed.
Lemma ex_mass : finite (right64 (first64 (wrun ex_emit) ex_four "mass")) = true /\ value (right64 (first64 (wrun ex_emit) ex_four "mass")) = 2.
Proof. split; [apply fin_SF; vm_compute; reflexivity|b64_val; lra]. Qed.
Lemma ex_p : finite (right64 (mean64 with_p (wrun ex_emit) ex_four "p")) = true /\ value (right64 (mean64 with_p (wrun ex_emit) ex_four "p")) = 1.
Proof. split; [apply fin_SF; vm_compute; reflexivity|b64_val; lra]. Qed.

(** All of it in one statement, with names for the values. *)
Lemma ex_all : exists a c d mass P : b64,
  ex_m ["x"; "x"] = inr a /\ ex_m ["x"; "px"] = inr c /\ ex_m ["px"; "px"] = inr d /\
  first64 (wrun ex_emit) ex_four "mass" = inr mass /\ mean64 with_p (wrun ex_emit) ex_four "p" = inr P /\
  (finite a = true /\ value a = 1) /\ (finite c = true /\ value c = 1) /\ (finite d = true /\ value d = 2) /\
  (finite mass = true /\ value mass = 2) /\ (finite P = true /\ value P = 1).
Proof.
  destruct ex_values as (A & C & D & M & HP). exists (right64 (ex_m ["x"; "x"])), (right64 (ex_m ["x"; "px"])), (right64 (ex_m ["px"; "px"])),
    (right64 (first64 (wrun ex_emit) ex_four "mass")), (right64 (mean64 with_p (wrun ex_emit) ex_four "p")).
  split; [exact A|]. split; [exact C|]. split; [exact D|]. split; [exact M|]. split; [exact HP|].
  split; [exact ex_a|]. split; [exact ex_c|]. split; [exact ex_d|]. split; [exact ex_mass|exact ex_p].
Qed.

Lemma usual_of x r : finite x = true /\ value x = r -> / 2 <= r <= 2 -> usual x.
Proof.
  intros [F V] H. split; [exact F|]. right. rewrite V, Rabs_right by lra. assert (2 <= 2 ^ 200) by (apply Rle_trans with (2 ^ 1); [lra|apply Rle_pow; [lra|lia]]).
  split; [|lra]. apply Rle_trans with (/ 2); [|lra]. apply Rinv_le_contravar; lra.
Qed.
Lemma everyday_of x r : finite x = true /\ value x = r -> / 2 <= r <= 2 -> everyday x.
Proof.
  intros [F V] H. split; [exact F|]. rewrite V, Rabs_right by lra. assert (2 <= 2 ^ 60) by (apply Rle_trans with (2 ^ 1); [lra|apply Rle_pow; [lra|lia]]).
  split; [|lra]. apply Rle_trans with (/ 2); [|lra]. apply Rinv_le_contravar; lra.
Qed.
Lemma spread_112 : spread 1 1 2 = 3.
Proof. unfold spread. field. Qed.

(** The emittance of the four hits is one half, up to 40 units. *)
Example C100_emittance_ex : exists e : b64, emittance64 lu_det root_plain with_p false (wrun ex_emit) ex_four ["x"] None = inr e /\
  finite e = true /\ Rabs (value e - / 2) <= 20 * unit.
Proof.
  destruct ex_all as (a & c & d & mass & P & A & C & D & M & _ & Qa & Qc & Qd & Qm & _).
  pose proof (proj2 Qa) as Va. pose proof (proj2 Qc) as Vc. pose proof (proj2 Qd) as Vd. pose proof (proj2 Qm) as Vm.
  destruct (C100_emittance lu_det root_plain with_p (wrun ex_emit) ex_four "x" "px" a c d mass lu_good root_good (or_introl eq_refl) A C D M) as (e & E & F & B).
  - apply (usual_of _ _ Qa); lra.
  - apply (usual_of _ _ Qc); lra.
  - apply (usual_of _ _ Qd); lra.
  - apply (everyday_of _ _ Qm); lra.
  - rewrite Vm. lra.
  - rewrite Va, Vc, Vd. lra.
  - rewrite Va, Vc, Vd, spread_112. lra.
  - exists e. split; [exact E|]. split; [exact F|]. cbv zeta in B. rewrite Va, Vc, Vd, Vm, spread_112 in B.
    replace (1 * 2 - 1 * 1) with 1 in B by ring. rewrite sqrt_1 in B. replace (1 / 2) with (/ 2) in B by field. lra.
Qed.

(** C100.  beta, gamma and alpha of one axis are right up to some units of precision times how close to singular the
    covariances are, and beta * gamma - alpha^2 = 1 up to such an error. *)
Theorem C100_twiss :
  forall det pow extra (w : World64) (b : Bunch) (q p : string) (a c d mass P : b64),
    good_det det -> good_root pow -> In (q, p) pairs ->
    moment extra no_fixed w b [q; q] [] = inr a -> moment extra no_fixed w b [q; p] [] = inr c ->
    moment extra no_fixed w b [p; p] [] = inr d -> first64 w b "mass" = inr mass -> mean64 extra w b "p" = inr P ->
    usual a -> usual c -> usual d -> everyday mass -> 0 < value mass -> everyday P ->
    0 < value a * value d - value c * value c -> spread (value a) (value c) (value d) <= 2 ^ 40 ->
    exists beta gamma alpha : b64,
      beta64 det pow extra false w b [q] = inr beta /\ gamma64 det pow extra false w b [q] = inr gamma /\
      alpha64 det pow extra false w b [q] = inr alpha /\
      finite beta = true /\ finite gamma = true /\ finite alpha = true /\
      let root := sqrt (value a * value d - value c * value c) in
      let K := spread (value a) (value c) (value d) in
      Rabs (value beta - value a * value P / root) <= 40 * K * unit * Rabs (value a * value P / root) /\
      Rabs (value gamma - value d / (value P * root)) <= 40 * K * unit * Rabs (value d / (value P * root)) /\
      Rabs (value alpha - - (value c / root)) <= 40 * K * unit * Rabs (value c / root) /\
      Rabs (value beta * value gamma - value alpha * value alpha - 1) <= 200 * K * unit.
Proof.
  intros det pow extra w b q p a c d mass P Gd Gr Hq HA HC HD HM HP Ua Uc Ud Em Pm EP PD HK.
  destruct (emit_value det pow Gd Gr a c d mass Ua Uc Ud Em Pm PD HK) as (F & t & Ht & V).
  pose proof (emittance_is det pow extra w b q p a c d mass Hq HA HC HD HM) as E. set (e := fdiv _ mass) in *.
  destruct (beta_like a c d mass P e Ua Ud Em Pm EP PD HK t F Ht V) as (y1 & Y1 & F1 & K1).
  destruct (gamma_like a c d mass P e Ua Ud Em Pm EP PD HK t F Ht V) as (g & y2 & G2 & Y2 & F2 & K2).
  destruct (alpha_like a c d mass e Ua Uc Ud Em Pm PD HK t F Ht V) as (y3 & Y3 & F3 & K3).
  destruct (t_small a c d PD HK t Ht) as (T & T2 & K0 & Ku).
  pose proof (em_eq a c d mass e Pm t V) as EM. pose proof (spread_eq a c d PD) as SE.
  exists (fmul (fadd fzero a) y1), y2, (fopp y3).
  split; [exact (beta_is det pow extra w b q p a c d mass Hq HA HC HD HM e P y1 E HP Y1)|].
  split; [exact (gamma_is det pow extra w b q p a c d mass Hq HA HC HD HM e P g y2 E HP G2 Y2)|].
  split; [exact (alpha_is det pow extra w b q p a c d mass Hq HA HC HD HM e y3 E Y3)|].
  split; [exact F1|]. split; [exact F2|]. split; [exact F3|]. cbv zeta. rewrite unit_u.
  destruct K1 as (h1 & H1 & ->). destruct K2 as (h2 & H2 & ->). destruct K3 as (h3 & H3 & ->).
  set (D := value a * value d - value c * value c) in *. set (K := spread _ _ _) in *. set (s := sqrt D) in *.
  assert (Ps : 0 < s) by (apply sqrt_lt_R0, PD). assert (Ss : s * s = D) by (apply sqrt_sqrt; lra).
  destruct (everyday_scaled P EP) as (_ & _ & NP). assert (N1 : 1 + t <> 0) by lra.
  assert (Ne : value e <> 0).
  { rewrite V. apply Rmult_integral_contrapositive_currified; [|exact N1]. apply Rmult_integral_contrapositive_currified; [lra|]. apply Rinv_neq_0_compat; lra. }
  assert (E1 : value a * (value P / (value e * value mass)) = value a * value P / s / (1 + t)) by (rewrite EM; field; split; lra).
  assert (E2 : value d / (value P * value mass) / value e = value d / (value P * s) / (1 + t)).
  { replace (value d / (value P * value mass) / value e) with (value d / (value P * (value e * value mass))) by (field; repeat split; lra). rewrite EM. field. repeat split; lra. }
  assert (E3 : - (value c / (value e * value mass)) = - (value c / s) / (1 + t)) by (rewrite EM; field; split; lra).
  rewrite E1, E2, E3.
  assert (Q : forall x h m, near m h -> (m <= 4)%nat -> Rabs (x / (1 + t) * h - x) <= 40 * K * u * Rabs x).
  { intros x h m H L. replace (x / (1 + t) * h - x) with ((h / (1 + t) - 1) * x) by (field; lra). rewrite Rabs_mult.
    apply Rmult_le_compat_r; [apply Rabs_pos|]. apply quotient_near; [exact K0|exact Ku| |exact T].
    apply (near_abs 4); [apply (near_le m); [exact L|exact H]|lia|simpl; lra]. }
  split; [apply (Q _ _ 3%nat); [exact H1|lia]|]. split; [apply (Q _ _ 4%nat); [exact H2|lia]|].
  split; [rewrite <- (Rabs_Ropp (value c / s)); apply (Q _ _ 2%nat); [exact H3|lia]|].
  replace (value a * value P / s / (1 + t) * h1 * (value d / (value P * s) / (1 + t) * h2) - - (value c / s) / (1 + t) * h3 * (- (value c / s) / (1 + t) * h3) - 1)
    with (value a * value d / (s * (1 + t) * (s * (1 + t))) * (h1 * h2) - value c * value c / (s * (1 + t) * (s * (1 + t))) * (h3 * h3) - 1)
    by (field; repeat split; lra).
  apply (twiss_near (value a * value d) (value c * value c) D K (s * (1 + t)) t); try assumption.
  - apply sq_nonneg.
  - reflexivity.
  - rewrite <- Ss. ring.
  - apply Rmult_integral_contrapositive_currified; lra.
  - apply (near_abs 7); [exact (near_mul 3 4 _ _ H1 H2)|lia|simpl; lra].
  - apply (near_abs 4); [exact (near_mul 2 2 _ _ H3 H3)|lia|simpl; lra].
Qed.
Print Assumptions C100_twiss.

(** For the four hits beta is 1, gamma 2 and alpha -1. *)
Example C100_twiss_ex : exists beta gamma alpha : b64,
  beta64 lu_det root_plain with_p false (wrun ex_emit) ex_four ["x"] = inr beta /\
  gamma64 lu_det root_plain with_p false (wrun ex_emit) ex_four ["x"] = inr gamma /\
  alpha64 lu_det root_plain with_p false (wrun ex_emit) ex_four ["x"] = inr alpha /\
  Rabs (value beta - 1) <= 120 * unit /\ Rabs (value gamma - 2) <= 240 * unit /\ Rabs (value alpha - -1) <= 120 * unit /\
  Rabs (value beta * value gamma - value alpha * value alpha - 1) <= 600 * unit.
Proof.
  destruct ex_all as (a & c & d & mass & P & A & C & D & M & HP & Qa & Qc & Qd & Qm & Qp).
  pose proof (proj2 Qa) as Va. pose proof (proj2 Qc) as Vc. pose proof (proj2 Qd) as Vd. pose proof (proj2 Qm) as Vm. pose proof (proj2 Qp) as Vp.
  destruct (C100_twiss lu_det root_plain with_p (wrun ex_emit) ex_four "x" "px" a c d mass P lu_good root_good (or_introl eq_refl) A C D M HP)
    as (be & ga & al & Eb & Eg & Ea & _ & _ & _ & B).
  - apply (usual_of _ _ Qa); lra.
  - apply (usual_of _ _ Qc); lra.
  - apply (usual_of _ _ Qd); lra.
  - apply (everyday_of _ _ Qm); lra.
  - rewrite Vm. lra.
  - apply (everyday_of _ _ Qp); lra.
  - rewrite Va, Vc, Vd. lra.
  - rewrite Va, Vc, Vd, spread_112. lra.
  - exists be, ga, al. split; [exact Eb|]. split; [exact Eg|]. split; [exact Ea|]. cbv zeta in B. rewrite Va, Vc, Vd, Vp, spread_112 in B.
    replace (1 * 2 - 1 * 1) with 1 in B by ring. rewrite sqrt_1 in B. replace (1 * 1 / 1) with 1 in B by field. replace (2 / (1 * 1)) with 2 in B by field.
    replace (1 / 1) with 1 in B by field. rewrite (Rabs_right 1), (Rabs_right 2) in B by lra. replace (-1) with (- (1)) by ring.
    destruct B as (B1 & B2 & B3 & B4). repeat split; lra.
Qed.

(** C100.  Both conditions on the libraries can be met: elimination with pivots and correctly rounded square roots. *)
Theorem C100_plain : good_det lu_det /\ good_root root_plain.
Proof. split; [exact lu_good|exact root_good]. Qed.
Print Assumptions C100_plain.

(** C100.  Where rounding makes the determinant negative, the emittance is not a number, and no exception tells. *)
Theorem C100_nan :
  forall det pow extra (w : World64) (b : Bunch) (q p : string) (a c d mass : b64),
    good_det det -> good_root pow -> In (q, p) pairs ->
    moment extra no_fixed w b [q; q] [] = inr a -> moment extra no_fixed w b [q; p] [] = inr c ->
    moment extra no_fixed w b [p; p] [] = inr d -> first64 w b "mass" = inr mass ->
    usual a -> usual c -> usual d -> value (det [[a; c]; [c; d]]) < 0 ->
    exists e : b64, emittance64 det pow extra false w b [q] None = inr e /\ is_nan e = true.
Proof.
  intros det pow extra w b q p a c d mass Gd Gr Hq HA HC HD HM Ua Uc Ud N. eexists.
  split; [exact (emittance_is det pow extra w b q p a c d mass Hq HA HC HD HM)|]. exact (emit_nan det pow Gd Gr a c d mass Ua Uc Ud N).
Qed.
Print Assumptions C100_nan.

(** Three hits on a line: x = 0, 4, 1 and px = 3 x; the mass is 2. *)
Definition ex_on_line : list (WOp B64Num) :=
  [ WNew; WNew; WNew ] ++
  flat_map (fun q : nat * Z * Z => let '(l, x, p) := q in [ WSet l "mass" (z64 2); WSet l "x" (z64 x); WSet l "px" (z64 p) ])
    [ (0%nat, 0, 0); (1%nat, 4, 12); (2%nat, 1, 3) ]%Z.
Definition ex_three : Bunch := append (append (append bunch_new 0) 1) 2.

Lemma one_val : value (b64_of_Z 1) = 1. Proof. b64_val. lra. Qed.
Lemma three_val : value (b64_of_Z 3) = 3. Proof. b64_val. lra. Qed.
Lemma four_val : value (b64_of_Z 4) = 4. Proof. b64_val. lra. Qed.
Lemma twelve_val : value (b64_of_Z 12) = 12. Proof. b64_val. lra. Qed.

Lemma ex_line_nan : exists e, emittance64 lu_det root_plain with_p false (wrun ex_on_line) ex_three ["x"] None = inr e /\ is_nan e = true.
Proof.
  assert (E : is_right (emittance64 lu_det root_plain with_p false (wrun ex_on_line) ex_three ["x"] None) = true) by (vm_compute; reflexivity).
  assert (N : is_nan (right64 (emittance64 lu_det root_plain with_p false (wrun ex_on_line) ex_three ["x"] None)) = true) by (vm_compute; reflexivity).
  revert E N. generalize (emittance64 lu_det root_plain with_p false (wrun ex_on_line) ex_three ["x"] None). intros r E N.
  exists (right64 r). split; [exact (right_is r E)|exact N].
Qed.

(** C100, refuted: the emittance of hits on a straight line need not be 0, nor near it, nor a number. *)
Theorem C100_line_refuted :
  ~ (forall p b, (forall l, In l (b_hits b) -> num64 (wrun p) "px" l = 3 * num64 (wrun p) "x" l) ->
       forall e, emittance64 lu_det root_plain with_p false (wrun p) b ["x"] None = inr e -> finite e = true).
Proof.
  intros H. destruct ex_line_nan as (e & E & N).
  assert (L : forall l, In l (b_hits ex_three) -> num64 (wrun ex_on_line) "px" l = 3 * num64 (wrun ex_on_line) "x" l).
  { clear N. assert (N : forall l k v, hit_get (wrun ex_on_line) l v = Some (z64 k) -> num64 (wrun ex_on_line) v l = value (b64_of_Z k))
      by (intros l k v Q; unfold num64; rewrite Q; reflexivity).
    intros l [<- |[<- |[<- |[]]]].
    - rewrite (N 0%nat 0%Z "x" eq_refl), (N 0%nat 0%Z "px" eq_refl). b64_val. lra.
    - rewrite (N 1%nat 4%Z "x" eq_refl), (N 1%nat 12%Z "px" eq_refl), four_val, twelve_val. lra.
    - rewrite (N 2%nat 1%Z "x" eq_refl), (N 2%nat 3%Z "px" eq_refl), one_val, three_val. lra. }
  specialize (H _ _ L e E). clear - H N. destruct e; discriminate.
Qed.
Print Assumptions C100_line_refuted.

(** The three hits meet the hypotheses of C100_nan. *)
Notation ex_l vars := (moment with_p no_fixed (wrun ex_on_line) ex_three vars []).
Lemma usual_by x r s : finite x = true -> value x = r -> / 2 <= r <= s -> s <= 100 -> usual x.
Proof.
  intros F V H Hs. split; [exact F|]. right. rewrite V, Rabs_right by lra. assert (128 <= 2 ^ 200) by (apply Rle_trans with (2 ^ 7); [lra|apply Rle_pow; [lra|lia]]).
  split; [|lra]. apply Rle_trans with (/ 2); [|lra]. apply Rinv_le_contravar; lra.
Qed.
Lemma ex_line_all : exists a c d mass : b64,
  ex_l ["x"; "x"] = inr a /\ ex_l ["x"; "px"] = inr c /\ ex_l ["px"; "px"] = inr d /\ first64 (wrun ex_on_line) ex_three "mass" = inr mass /\
  usual a /\ usual c /\ usual d /\ value (lu_det [[a; c]; [c; d]]) < 0.
Proof.
  exists (right64 (ex_l ["x"; "x"])), (right64 (ex_l ["x"; "px"])), (right64 (ex_l ["px"; "px"])), (right64 (first64 (wrun ex_on_line) ex_three "mass")).
  split; [apply right_is; vm_compute; reflexivity|]. split; [apply right_is; vm_compute; reflexivity|].
  split; [apply right_is; vm_compute; reflexivity|]. split; [apply right_is; vm_compute; reflexivity|].
  split; [eapply usual_by with (s := 100); [apply fin_SF; vm_compute; reflexivity|reflexivity|b64_val; lra|lra]|].
  split; [eapply usual_by with (s := 100); [apply fin_SF; vm_compute; reflexivity|reflexivity|b64_val; lra|lra]|].
  split; [eapply usual_by with (s := 100); [apply fin_SF; vm_compute; reflexivity|reflexivity|b64_val; lra|lra]|].
  b64_val; lra.
Qed.
Example C100_nan_ex : exists e : b64, emittance64 lu_det root_plain with_p false (wrun ex_on_line) ex_three ["x"] None = inr e /\ is_nan e = true.
Proof.
  destruct ex_line_all as (a & c & d & mass & A & C & D & M & Ua & Uc & Ud & N).
  exact (C100_nan lu_det root_plain with_p (wrun ex_on_line) ex_three "x" "px" a c d mass lu_good root_good (or_introl eq_refl) A C D M Ua Uc Ud N).
Qed.
