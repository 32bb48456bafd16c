(** C73: the closed orbit finder. *)
From Coq Require Import Reals String List Bool Lia Lra Arith.
From Verif Require Import Num HitPyModel HitPySpec HitPyProofs CommonSpec CommonModel CommonProofs GridProofs EllipseModel
  EllipseProofs DetProofs MatProofs TransformModel TransformProofs FitModel FitSpec FitProofs FitProps
  AlgoModel AlgoSpec AlgoProps OrbitModel OrbitSpec OrbitProofs.
Import ListNotations.
Open Scope R_scope.
Local Notation length := List.length.
Local Notation concat := List.concat.

(** The points of an iteration.  The particle is tracked from the start and again from the last
    hit found, until there are enough points; they are read in the order found, after the start
    itself if that is to be used, and no more tracking is done than needed.  RuntimeError: the
    tracking gave no hit other than the one it started from.  IndexError: not even one in the first
    pass, and the start is not used.  The loop always ends, after at most [n] passes. *)
Theorem C73_points : forall (H : Type) (get : H -> string -> R) (same : H -> H -> bool) (track : H -> list H) (use_seed : bool) keys start n,
  (forall h : H, same h h = true) ->
  let pre := if use_seed then [start] else [] in
  let read := fun h => map (get h) keys in
  (forall fuel, (n <= fuel)%nat ->
     get_points H get same track use_seed fuel keys start n = get_points H get same track use_seed n keys start n) /\
  match get_points H get same track use_seed n keys start n with
  | inr x_list => exists chunks e,
      passes track same start chunks e /\ x_list = map read (pre ++ concat chunks) /\ (n <= length x_list)%nat /\
      forall first last, chunks = first ++ [last] -> (length (pre ++ concat first) < n)%nat
  | inl ORuntime => exists chunks e,
      passes track same start chunks e /\ (length (pre ++ concat chunks) < n)%nat /\
      ((tl (track e) = [] /\ pre ++ concat chunks <> []) \/
       exists l final, tl (track e) = l ++ [final] /\ same final e = true)
  | inl OIndex => use_seed = false /\ tl (track start) = [] /\ (0 < n)%nat
  | inl _ => False
  end.
Proof.
  intros H get same track use_seed keys start n Refl pre read.
  pose proof (points_loop_spec H same track Refl n start pre n pre [] start) as P.
  cbn [concat] in P. rewrite app_nil_r in P. specialize (P eq_refl (no_pass _ _ _)).
  specialize (P ltac:(unfold pre; destruct use_seed; [right; exists []; auto|left; auto]) ltac:(lia)).
  specialize (P ltac:(intros first rest E; destruct first; discriminate)).
  unfold get_points. fold pre. split.
  - intros fuel Hf. erewrite (points_loop_fuel H same track n n fuel pre start); [reflexivity|reflexivity| |auto].
    intros E. rewrite E in P. exact P.
  - destruct (points_loop H same track n n pre start) as [[]|hits]; auto.
    + destruct P as (E & T & Hn). split; auto. unfold pre in E. destruct use_seed; [discriminate|auto].
    + destruct P as (chunks & e & P & -> & Hn & Hl). exists chunks, e. split; auto. split; auto. split; auto.
      rewrite map_length. auto.
Qed.
Print Assumptions C73_points.

(** The noise of an iteration.  The centre and the ellipse are mean and covariance of the points
    the fit has kept in the end (C60_result).  If the ellipse has area, the noise of a point is its
    distance from the centre in units of the ellipse, times the mean radius squared of the ellipse, and no
    noise is negative; over the points kept the mean of the noise is the dimension times that radius
    squared.  If it has none, there is no noise. *)
Theorem C73_noise : forall d inv eps_max points,
  let ws := repeat 1 (length points) in
  cloud d points ws -> inverts_all d inv ->
  let it := calculate_ellipse inv eps_max points in
  exists kept,
    fit_ellipse inv points eps_max None 10 false = inr (it_centre it, it_ellipse it) /\
    it_points it = points /\
    length (it_centre it) = d /\ shape d d (it_ellipse it) /\
    (forall j, (j < d)%nat -> nth j (it_centre it) 0 = wmean points ws kept j) /\
    (forall j k, (j < d)%nat -> (k < d)%nat -> ent (it_ellipse it) j k = wcov points ws kept j k) /\
    (det_n d (wcov points ws kept) = 0 -> it_noise it = None) /\
    (det_n d (wcov points ws kept) <> 0 -> exists r Vi noise,
       0 < r /\ r ^ d = det_n d (wcov points ws kept) /\
       inverse_fun d (wcov points ws kept) Vi /\
       it_noise it = Some noise /\
       noise = map (fun p => r * distance d Vi (wmean points ws kept) p) points /\
       (forall x, In x noise -> 0 <= x) /\
       wsum points ws kept (fun p => r * distance d Vi (wmean points ws kept) p) / wsum points ws kept (fun _ => 1) = INR d * r).
Proof.
  intros d inv eps_max points ws Cl Inv it.
  destruct (C60_result d inv points None eps_max 10 false Cl Inv ltac:(lia)) as (ch & mean & cov & E & R). cbv zeta in R.
  cbn [chosen_weights] in R. fold ws in R. destruct R as (Hn & H0 & Hin & Lm & Sh & M & C & Go & St).
  set (kept := nth (length ch - 1) ch []) in *. exists kept.
  unfold it, calculate_ellipse. rewrite E. cbn [it_centre it_ellipse it_points it_noise].
  split; auto. split; auto. split; auto. split; auto. split; auto. split; auto.
  destruct (noise_spec d inv points ws kept mean cov Cl Inv Lm Sh M C) as [A B]. split; auto.
  intros Nz. destruct (B Nz) as (r & Vi & noise & Pr & Er & HV & En & Ev). exists r, Vi, noise.
  split; auto. split; auto. split; auto. split; auto. split; auto. split.
  - intros x Hx. rewrite Ev in Hx. apply in_map_iff in Hx. destruct Hx as (p & <- & Hp).
    apply Rmult_le_pos; [lra|]. apply (distance_nonneg d points ws Cl kept Vi HV).
  - rewrite wsum_scale, (distance_total d points ws Cl kept Vi HV).
    assert (0 < wsum points ws kept (fun _ => 1)).
    { apply (total_pos d points ws Cl). destruct (some_or_none points kept) as [X|X]; auto. exfalso. apply Nz.
      rewrite (det_ext d _ (scale 0 (wcov points ws kept))).
      - rewrite det_scale. destruct Cl as (Hd & _). rewrite pow_i by lia. ring.
      - intros i j Hi Hj. unfold scale, wcov. rewrite !(none_zero points ws kept) by auto. unfold Rdiv. ring. }
    field. lra.
Qed.
Print Assumptions C73_noise.

(** The largest distance any point can have is the number of points: if the fit does not cut as far
    out as that, or if the ellipse is small (C60_small_refuted), all points are kept: the centre
    and the ellipse are mean and covariance of all points, and the mean noise is the dimension
    times the mean radius squared. *)
Theorem C73_whole : forall d inv eps_max points,
  let ws := repeat 1 (length points) in
  let everything := repeat true (length points) in
  let V := wcov points ws everything in
  cloud d points ws -> inverts_all d inv ->
  0 < det_n d V ->
  INR (length points) * sqrt (det_n d V) < eps_max \/ det_n d V <= 1 / 1000000000 ->
  exists r Vi centre ellipse noise,
    calculate_ellipse inv eps_max points = mkIteration points centre ellipse (Some noise) /\
    length centre = d /\ shape d d ellipse /\
    (forall j, (j < d)%nat -> nth j centre 0 = wmean points ws everything j) /\
    (forall j k, (j < d)%nat -> (k < d)%nat -> ent ellipse j k = V j k) /\
    0 < r /\ r ^ d = det_n d V /\ inverse_fun d V Vi /\
    noise = map (fun p => r * distance d Vi (wmean points ws everything) p) points /\
    mean_noise noise = inr (INR d * r).
Proof.
  intros d inv eps_max points ws everything V Cl Inv Dp Small.
  destruct (C60_result d inv points None eps_max 10 false Cl Inv ltac:(lia)) as (ch & mean & cov & E & R). cbv zeta in R.
  cbn [chosen_weights] in R. fold ws in R. fold everything in R. destruct R as (Hn & H0 & Hin & Lm & Sh & M & C & Go & St).
  assert (Ev : forall i, (i < length points)%nat -> nth i everything false = true).
  { intros i Hi. unfold everything. rewrite (nth_indep _ false true) by (rewrite repeat_length; auto). apply nth_repeat. }
  assert (Ew : forall i, (i < length points)%nat -> nth i ws 0 = 1).
  { intros i Hi. unfold ws. rewrite (nth_indep _ 0 1) by (rewrite repeat_length; auto). apply nth_repeat. }
  assert (Sm : forall f, wsum points ws everything f = sum_n (length points) (fun i => f (nth i points []))).
  { intros f. unfold wsum. apply sum_n_ext. intros i Hi. rewrite Ev, Ew by auto. ring. }
  assert (T : wsum points ws everything (fun _ => 1) = INR (length points)).
  { rewrite Sm. generalize (length points). induction n as [|n IH]; [reflexivity|]. cbn [sum_n]. rewrite IH, S_INR. ring. }
  assert (Last : nth (length ch - 1) ch [] = everything).
  { destruct (Nat.eq_dec (length ch) 1) as [L1|L1].
    - rewrite L1. exact H0.
    - specialize (Hin 0%nat ltac:(lia)) as I. rewrite H0 in I.
      pose proof (Go 0%nat ltac:(lia)) as G0. cbn in G0. rewrite H0 in G0. fold V in G0. rewrite Rminus_0_r, Rabs_right in G0 by lra.
      destruct Small as [Small|Small]; [|lra].
      assert (E1 : nth 1 ch [] = everything).
      { destruct I as (Vi & HV & LS & Hi). apply (nth_ext _ _ false false).
        - rewrite LS. unfold everything. rewrite repeat_length. reflexivity.
        - intros i Hl. rewrite LS in Hl. rewrite (Ev i Hl). apply (Hi i Hl).
          pose proof (distance_bound d points ws Cl everything Vi HV i Hl (Ev i Hl)) as B. rewrite (Ew i Hl), T, Rmult_1_l in B.
          apply (Rle_lt_trans _ (INR (length points) * sqrt (det_n d V))); [|exact Small].
          apply Rmult_le_compat_r; [apply sqrt_pos|]. exact B. }
      destruct (Nat.eq_dec (length ch) 2) as [L2|L2]; [rewrite L2; exact E1|]. exfalso.
      specialize (Go 1%nat ltac:(lia)). cbn in Go. rewrite E1, H0 in Go. rewrite Rminus_diag_eq, Rabs_R0 in Go by reflexivity. lra. }
  rewrite Last in M, C. fold V in C.
  destruct (noise_spec d inv points ws everything mean cov Cl Inv Lm Sh M C) as [_ B].
  destruct (B ltac:(fold V; lra)) as (r & Vi & noise & Pr & Er & HV & En & Evn).
  exists r, Vi, mean, cov, noise. unfold calculate_ellipse. rewrite E, En.
  split; auto. split; auto. split; auto. split; auto. split; auto. split; auto. split; auto. split; auto. split; auto.
  pose proof Cl as (Hd & Ne & _). rewrite C52_mean by (rewrite Evn; destruct points; [contradiction|discriminate]).
  f_equal. unfold average. rewrite Evn, map_length.
  assert (P : 0 < INR (length points)) by (apply lt_0_INR; destruct points; [contradiction|cbn; lia]).
  assert (Q : total (map (fun p => r * distance d Vi (wmean points ws everything) p) points) =
              wsum points ws everything (fun p => r * distance d Vi (wmean points ws everything) p)).
  { rewrite Sm.
    assert (G : forall (f : list R -> R) pts, total (map f pts) = sum_n (length pts) (fun i => f (nth i pts []))).
    { intros f. induction pts as [|p ps IH]; [reflexivity|]. cbn [map length]. rewrite sum_n_first. cbn [nth]. rewrite <- IH. reflexivity. }
    apply G. }
  rewrite Q, wsum_scale, (distance_total d points ws Cl everything Vi HV), T. field. lra.
Qed.
Print Assumptions C73_whole.

(** The generator yields at most the number of iterations allowed.  Every iteration is that of the
    points tracked from its own start: the seed first, afterwards the start before with its
    variables set to the centre found.  It goes on after an iteration only if the mean noise is not below
    its standard deviation. *)
Theorem C73_generator : forall (H : Type) get set (same : H -> H -> bool) track inv (use_seed : bool) eps_max seed keys n k its e,
  (forall h : H, same h h = true) ->
  find_closed_orbit H get set same track inv use_seed eps_max seed keys n (Some k) = (its, e) ->
  (length its <= k)%nat /\
  exists starts,
    length starts = length its /\
    (its <> [] -> nth_error starts 0 = Some seed) /\
    (forall i it start, nth_error its i = Some it -> nth_error starts i = Some start ->
       get_points H get same track use_seed n keys start n = inr (it_points it) /\
       it = calculate_ellipse inv eps_max (it_points it) /\
       (exists noise, it_noise it = Some noise /\
          ((S i < length its)%nat -> exists m s, mean_noise noise = inr m /\ sigma_noise noise = inr s /\ s <= m)) /\
       (forall start', nth_error starts (S i) = Some start' -> start' = move H set start keys (it_centre it))).
Proof.
  intros H get set same track inv use_seed eps_max seed keys n k its e Refl. cbn [find_closed_orbit]. revert seed its e.
  induction k as [|k IH]; intros seed its e E.
  - cbn in E. injection E as <- <-. split; [auto|]. exists []. split; auto. split; [contradiction|]. intros [|i] it start X; discriminate.
  - cbn [orbit_loop] in E. destruct (get_points H get same track use_seed n keys seed n) as [er|x_list] eqn:G.
    { injection E as <- <-. split; [cbn; lia|]. exists []. split; auto. split; [contradiction|]. intros [|i] it start X; discriminate. }
    cbv zeta in E. set (co := calculate_ellipse inv eps_max x_list) in *.
    assert (Px : it_points co = x_list).
    { unfold co, calculate_ellipse. destruct (fit_ellipse _ _ _ _ _ _) as [|[c el]]; reflexivity. }
    destruct (it_noise co) as [noise|] eqn:En.
    2:{ injection E as <- <-. split; [cbn; lia|]. exists []. split; auto. split; [contradiction|]. intros [|i] it start X; discriminate. }
    assert (One : forall er, ([co], er) = (its, e) -> (length its <= S k)%nat /\ exists starts, length starts = length its /\
       (its <> [] -> nth_error starts 0 = Some seed) /\
       (forall i it start, nth_error its i = Some it -> nth_error starts i = Some start ->
       get_points H get same track use_seed n keys start n = inr (it_points it) /\
       it = calculate_ellipse inv eps_max (it_points it) /\
       (exists noise, it_noise it = Some noise /\
          ((S i < length its)%nat -> exists m s, mean_noise noise = inr m /\ sigma_noise noise = inr s /\ s <= m)) /\
       (forall start', nth_error starts (S i) = Some start' -> start' = move H set start keys (it_centre it)))).
    { intros er X. injection X as <- <-. split; [cbn; lia|]. exists [seed]. split; auto. split; auto.
      intros [|[|i]] it start X Y; try discriminate. injection X as <-. injection Y as <-. rewrite Px. split; auto. split; auto.
      split; [|intros; discriminate]. exists noise. split; auto. cbn. lia. }
    destruct (mean_noise noise) as [er|m] eqn:Em; [apply (One _ E)|].
    destruct (sigma_noise noise) as [er|s] eqn:Es; [apply (One _ E)|].
    unfold rltb in E. destruct (Rlt_dec m s) as [L|L]; [apply (One _ E)|].
    destruct (orbit_loop H get set same track inv use_seed eps_max k keys n (move H set seed keys (it_centre co))) as [l er] eqn:Ol.
    injection E as <- <-. destruct (IH _ _ _ Ol) as (Hl & starts & Ls & S0 & Hs). split; [cbn; lia|].
    exists (seed :: starts). split; [cbn; auto|]. split; [auto|]. intros [|i] it start X Y.
    + injection X as <-. injection Y as <-. rewrite Px. split; auto. split; auto. split.
      * exists noise. split; auto. intros _. exists m, s. split; auto. split; auto. lra.
      * intros start' Z. change (nth_error starts 0 = Some start') in Z. destruct l as [|it1 l]; [destruct starts; discriminate|].
        specialize (S0 ltac:(discriminate)). rewrite S0 in Z. injection Z as <-. reflexivity.
    + cbn [nth_error] in X, Y. destruct (Hs i it start X Y) as (A & B & (nn & C1 & C2) & D). split; auto. split; auto. split; [|auto].
      exists nn. split; auto. intros Hi. apply C2. cbn in Hi. lia.
Qed.
Print Assumptions C73_generator.

(** The starts: the variables of the search have the values of the centre found before, all other
    variables those of the seed. *)
Theorem C73_start : forall (H : Type) get set vars (start : H) keys centre,
  read_write vars get set -> (forall k, In k keys -> In k vars) -> NoDup keys -> length centre = length keys ->
  (forall j k, nth_error keys j = Some k -> get (move H set start keys centre) k = nth j centre 0) /\
  (forall v, In v vars -> ~ In v keys -> get (move H set start keys centre) v = get start v).
Proof. intros. eapply move_read; eauto. Qed.
Print Assumptions C73_start.

(** How the generator ends.  StopIteration: converged, the iterations are used up, or no ellipse was found
    although there are more points than asked for.  ValueError: no ellipse, and just as many points
    as asked for.  RuntimeError and IndexError: those of the points.  There is no other end. *)
Theorem C73_end : forall (H : Type) get set (same : H -> H -> bool) track inv (use_seed : bool) eps_max seed keys n k its e,
  (forall h : H, same h h = true) -> (1 <= n)%nat ->
  find_closed_orbit H get set same track inv use_seed eps_max seed keys n (Some k) = (its, e) ->
  exists start,
    (its = [] /\ start = seed \/
     exists its' it start', its = its' ++ [it] /\ start = move H set start' keys (it_centre it)) /\
    match e with
    | OStop =>
        length its = k \/
        (exists its' it noise m s, its = its' ++ [it] /\ it_noise it = Some noise /\
           mean_noise noise = inr m /\ sigma_noise noise = inr s /\ m < s) \/
        (exists x_list, get_points H get same track use_seed n keys start n = inr x_list /\
           it_noise (calculate_ellipse inv eps_max x_list) = None /\ (n < length x_list)%nat)
    | OValue => exists x_list, get_points H get same track use_seed n keys start n = inr x_list /\
           it_noise (calculate_ellipse inv eps_max x_list) = None /\ length x_list = n
    | ORuntime | OIndex => get_points H get same track use_seed n keys start n = inl e
    | OType | ORunning => False
    end.
Proof.
  intros H get set same track inv use_seed eps_max seed keys n k its e Refl Hn. cbn [find_closed_orbit]. revert seed its e.
  induction k as [|k IH]; intros seed its e E.
  - cbn in E. injection E as <- <-. exists seed. auto.
  - cbn [orbit_loop] in E. pose proof (proj2 (C73_points H get same track use_seed keys seed n Refl)) as P. cbv zeta in P.
    destruct (get_points H get same track use_seed n keys seed n) as [er|x_list] eqn:G.
    { injection E as <- <-. exists seed. split; auto. destruct er; try contradiction; exact G. }
    destruct P as (_ & _ & _ & _ & Lx & _).
    cbv zeta in E. set (co := calculate_ellipse inv eps_max x_list) in *.
    assert (Px : it_points co = x_list).
    { unfold co, calculate_ellipse. destruct (fit_ellipse _ _ _ _ _ _) as [|[c el]]; reflexivity. }
    destruct (it_noise co) as [noise|] eqn:En.
    2:{ injection E as <- <-. exists seed. split; auto. destruct (Nat.ltb_spec n (length x_list)).
        - right. right. exists x_list. split; [exact G|]. split; [exact En|auto].
        - exists x_list. split; [exact G|]. split; [exact En|lia]. }
    assert (Ln : noise <> []).
    { unfold co, calculate_ellipse in En. destruct (fit_ellipse _ _ _ _ _ _) as [|[c el]]; [discriminate|]. cbn [it_noise] in En.
      unfold noise_of in En. destruct (root (det el) (length c)); [|discriminate]. destruct (Req_EM_T r 0); [discriminate|].
      destruct (inv _); [|discriminate]. destruct (forallb _ _); [|discriminate]. injection En as <-. destruct x_list; [cbn in Lx; lia|discriminate]. }
    pose proof (C52_mean noise Ln) as Em. destruct (C52_sigma noise Ln) as (s & Es & _). rewrite Em, Es in E.
    unfold rltb in E. destruct (Rlt_dec (average noise) s) as [L|L].
    + injection E as <- <-. exists (move H set seed keys (it_centre co)). split; [right; exists [], co, seed; auto|].
      right. left. exists [], co, noise, (average noise), s. auto.
    + destruct (orbit_loop H get set same track inv use_seed eps_max k keys n (move H set seed keys (it_centre co))) as [l er] eqn:Ol.
      injection E as <- <-. destruct (IH _ _ _ Ol) as (start & W & Q). exists start. split.
      * right. destruct W as [[-> ->]|(its' & it & start' & -> & ->)].
        -- exists [], co, seed. auto.
        -- exists (co :: its'), it, start'. auto.
      * destruct er; auto. destruct Q as [Q|[Q|Q]]; auto.
        -- left. cbn. lia.
        -- right. left. destruct Q as (its' & it & nn & m & s' & -> & Q). exists (co :: its'), it, nn, m, s'. auto.
Qed.
Print Assumptions C73_end.

(** check_closed_orbit gives the first iteration the generator would give from the test values; where
    the generator raises ValueError or StopIteration as there is no ellipse, it returns an iteration without
    noise. *)
Theorem C73_check : forall (H : Type) get set (same : H -> H -> bool) track inv (use_seed : bool) eps_max seed tests n,
  (forall h : H, same h h = true) -> (1 <= n)%nat ->
  let keys := map fst tests in
  let start := move H set seed keys (map snd tests) in
  match check_closed_orbit H get set same track inv use_seed eps_max seed tests n with
  | inr it =>
      get_points H get same track use_seed n keys start n = inr (it_points it) /\
      forall k, exists its e,
        find_closed_orbit H get set same track inv use_seed eps_max start keys n (Some (S k)) = (its, e) /\
        (it_noise it <> None -> exists rest, its = it :: rest) /\
        (it_noise it = None -> its = [] /\ (e = OStop \/ e = OValue))
  | inl e => (e = ORuntime \/ e = OIndex) /\
      forall k, find_closed_orbit H get set same track inv use_seed eps_max start keys n (Some (S k)) = ([], e)
  end.
Proof.
  intros H get set same track inv use_seed eps_max seed tests n Refl Hn keys start. unfold check_closed_orbit. fold keys. fold start.
  pose proof (proj2 (C73_points H get same track use_seed keys start n Refl)) as P. cbv zeta in P.
  destruct (get_points H get same track use_seed n keys start n) as [er|x_list] eqn:G.
  - split; [destruct er; try contradiction; auto|]. intros k. cbn [find_closed_orbit orbit_loop]. rewrite G. reflexivity.
  - assert (Px : it_points (calculate_ellipse inv eps_max x_list) = x_list).
    { unfold calculate_ellipse. destruct (fit_ellipse _ _ _ _ _ _) as [|[c el]]; reflexivity. }
    rewrite Px. split; auto. intros k. cbn [find_closed_orbit orbit_loop]. rewrite G. cbv zeta.
    destruct (it_noise (calculate_ellipse inv eps_max x_list)) as [noise|] eqn:En.
    + destruct (mean_noise noise) as [|m]; [do 2 eexists; split; [reflexivity|]; split; [eauto|discriminate]|].
      destruct (sigma_noise noise) as [|s]; [do 2 eexists; split; [reflexivity|]; split; [eauto|discriminate]|].
      destruct (rltb m s); [do 2 eexists; split; [reflexivity|]; split; [eauto|discriminate]|].
      destruct (orbit_loop _ _ _ _ _ _ _ _ _ _ _ _) as [l er]. do 2 eexists. split; [reflexivity|]. split; [eauto|discriminate].
    + do 2 eexists. split; [reflexivity|]. split; [intros X; contradiction|]. intros _. split; auto. destruct (Nat.ltb _ _); auto.
Qed.
Print Assumptions C73_check.

(** Full statement (93-118): the generator finds the closed orbit.  False for a seed that is on it already:
    if the last hit tracked is within the tolerance the seed, RuntimeError is raised and nothing
    is yielded.  So it is if the particle is back at its start after some turns, however many points
    there are. *)
Theorem C73_fixed_refuted : forall (H : Type) get set (same : H -> H -> bool) track inv (use_seed : bool) eps_max seed keys n k l final,
  tl (track seed) = l ++ [final] -> same final seed = true ->
  (if use_seed then 2 <= n else 1 <= n)%nat ->
  find_closed_orbit H get set same track inv use_seed eps_max seed keys n (Some (S k)) = ([], ORuntime).
Proof.
  intros H get set same track inv use_seed eps_max seed keys n k l final T Sf Hn. cbn [find_closed_orbit orbit_loop].
  assert (G : get_points H get same track use_seed n keys seed n = inl ORuntime).
  { unfold get_points. destruct n as [|n]; [destruct use_seed; lia|]. cbn [points_loop].
    assert (L : Nat.ltb (length (if use_seed then [seed] else [])) (S n) = true).
    { apply Nat.ltb_lt. destruct use_seed; cbn; lia. }
    rewrite L, T, app_assoc, rev_app_distr. cbn [rev app]. rewrite Sf. reflexivity. }
  rewrite G. reflexivity.
Qed.
Print Assumptions C73_fixed_refuted.

(** Full statement (100-106): RuntimeError if the tracking does not return any new hits.  False in
    the first pass if the seed is not used: IndexError. *)
Theorem C73_lost_refuted : forall (H : Type) get set (same : H -> H -> bool) track inv eps_max seed keys n k,
  tl (track seed) = [] -> (1 <= n)%nat ->
  find_closed_orbit H get set same track inv false eps_max seed keys n (Some (S k)) = ([], OIndex).
Proof.
  intros H get set same track inv eps_max seed keys n k T Hn. cbn [find_closed_orbit orbit_loop].
  unfold get_points. destruct n as [|n]; [lia|]. cbn [points_loop length]. rewrite T. reflexivity.
Qed.
Print Assumptions C73_lost_refuted.

(** Full statement (107-108): max_iterations None iterates until a closed orbit is found.  False in Python 3. *)
Theorem C73_forever_refuted : forall (H : Type) get set (same : H -> H -> bool) track inv (use_seed : bool) eps_max seed keys n,
  find_closed_orbit H get set same track inv use_seed eps_max seed keys n None = ([], OType).
Proof. reflexivity. Qed.

(** Full statement: a loop over the generator ends when it has converged.  False from Python 3.7 on: it always
    ends with an exception, RuntimeError if it has converged. *)
Theorem C73_stop_refuted : forall (H : Type) get set (same : H -> H -> bool) track inv (use_seed : bool) eps_max seed keys n k its e,
  (forall h : H, same h h = true) -> (1 <= n)%nat ->
  find_closed_orbit H get set same track inv use_seed eps_max seed keys n (Some k) = (its, e) ->
  (raised e = ORuntime \/ raised e = OValue \/ raised e = OIndex) /\
  ((exists its' it noise m s, its = its' ++ [it] /\ it_noise it = Some noise /\
      mean_noise noise = inr m /\ sigma_noise noise = inr s /\ m < s) -> raised e = ORuntime).
Proof.
  intros H get set same track inv use_seed eps_max seed keys n k its e Refl Hn E. split.
  - destruct (C73_end H get set same track inv use_seed eps_max seed keys n k its e Refl Hn E) as (st & _ & Q).
    destruct e; try contradiction; auto.
  - cbn [find_closed_orbit] in E. revert seed its e E.
    induction k as [|k IH]; intros seed its e E (its' & it & noise & m & s & Ei & En & Em & Es & L).
    + cbn in E. injection E as <- <-. destruct its'; discriminate.
    + cbn [orbit_loop] in E. destruct (get_points H get same track use_seed n keys seed n) as [er|x_list];
        [injection E as <- <-; destruct its'; discriminate|].
      cbv zeta in E. destruct (it_noise (calculate_ellipse inv eps_max x_list)) as [nn|] eqn:Ec;
        [|injection E as <- <-; destruct its'; discriminate].
      assert (One : forall er, ([calculate_ellipse inv eps_max x_list], er) = (its, e) -> nn = noise).
      { intros er X. injection X as <- <-. destruct its' as [|? [|? ?]]; try discriminate. injection Ei as <-. congruence. }
      destruct (mean_noise nn) as [|m'] eqn:Em'; [exfalso; rewrite (One _ E) in Em'; congruence|].
      destruct (sigma_noise nn) as [|s'] eqn:Es'; [exfalso; rewrite (One _ E) in Es'; congruence|].
      unfold rltb in E. destruct (Rlt_dec m' s') as [L'|L']; [injection E as <- <-; reflexivity|].
      destruct (orbit_loop _ _ _ _ _ _ _ _ k _ _ _) as [l er] eqn:Ol. injection E as <- <-.
      apply (IH _ _ _ Ol). destruct its' as [|i0 its'].
      * exfalso. injection Ei as <- _. rewrite Ec in En. injection En as <-. assert (m' = m) by congruence. assert (s' = s) by congruence. subst. lra.
      * injection Ei as <- ->. exists its', it, noise, m, s. auto.
Qed.
Print Assumptions C73_stop_refuted.

(** Full statement (110-113): RuntimeError if the finder fails to fit an ellipse.  False: with the seed used and a tracking
    that gives one more hit in a pass there are just as many points as asked for, so that it is ValueError. *)
Theorem C73_singular_refuted : forall (H : Type) get set (same : H -> H -> bool) track inv eps_max seed keys n k,
  (forall h : H, same h h = true) -> (1 <= n)%nat -> (forall h, length (track h) = 2%nat) ->
  forall x_list, get_points H get same track true n keys seed n = inr x_list ->
  length x_list = n /\
  (it_noise (calculate_ellipse inv eps_max x_list) = None ->
   find_closed_orbit H get set same track inv true eps_max seed keys n (Some (S k)) = ([], OValue)).
Proof.
  intros H get set same track inv eps_max seed keys n k Refl Hn Two x_list G.
  assert (L : length x_list = n).
  { pose proof (proj2 (C73_points H get same track true keys seed n Refl)) as P. cbv zeta in P. rewrite G in P.
    destruct P as (chunks & e & P & -> & Hl & Hf). rewrite map_length in *.
    assert (One : forall h cs e, passes track same h cs e -> forall c, In c cs -> length c = 1%nat).
    { induction 1 as [h|h c f cs e' T S P' IH]; intros c' I; [destruct I|]. destruct I as [<-|I]; auto.
      rewrite <- T. specialize (Two h). destruct (track h) as [|a [|b [|z r]]]; try discriminate. reflexivity. }
    destruct chunks as [|c0 cs].
    - cbn in *. lia.
    - destruct (exists_last (l := c0 :: cs) ltac:(discriminate)) as (first & last & E). rewrite E in *.
      specialize (Hf first last eq_refl). specialize (One _ _ _ P last ltac:(apply in_or_app; right; left; auto)).
      rewrite concat_app, !app_length in *. cbn [concat app length] in *. rewrite app_nil_r in *. lia. }
  split; auto. intros En. cbn [find_closed_orbit orbit_loop]. rewrite G. cbv zeta. rewrite En, L, Nat.ltb_irrefl. reflexivity.
Qed.
Print Assumptions C73_singular_refuted.

(** ---- An example: a quarter turn about (1, 0) in every pass, four points, the seed used. ---- *)
Definition ex_get (h : R * R) (v : string) : R :=
  if String.eqb v "x" then fst h else if String.eqb v "px" then snd h else 0.
Definition ex_set (h : R * R) (v : string) (x : R) : R * R :=
  if String.eqb v "x" then (x, snd h) else if String.eqb v "px" then (fst h, x) else h.
Definition ex_same (a b : R * R) : bool :=
  (negb (rltb float_tolerance (Rabs (fst a - fst b))) && negb (rltb float_tolerance (Rabs (snd a - snd b))))%bool.
Definition ex_track (h : R * R) : list (R * R) := [h; (1 - snd h, fst h - 1)].
Definition ex_points : list (list R) := [[3; 0]; [1; 2]; [-1; 0]; [1; -2]].
Definition ex_keys : list string := ["x"; "px"]%string.

Lemma ex_refl : forall h, ex_same h h = true.
Proof.
  intros h. unfold ex_same, rltb. rewrite !Rminus_diag_eq, !Rabs_R0 by reflexivity. unfold float_tolerance.
  destruct (Rlt_dec _ _); [lra|reflexivity].
Qed.

Lemma ex_read_write : read_write ex_keys ex_get ex_set.
Proof.
  intros h k v x [<-|[<-|[]]] [<-|[<-|[]]]; reflexivity.
Qed.

Lemma ex_far a b : 1 <= Rabs (fst a - fst b) -> ex_same a b = false.
Proof.
  intros F. unfold ex_same, rltb, float_tolerance. destruct (Rlt_dec _ (Rabs (fst a - fst b))); [reflexivity|lra].
Qed.

Lemma ex_get_points : get_points (R * R) ex_get ex_same ex_track true 4 ex_keys (3, 0) 4 = inr ex_points.
Proof.
  unfold get_points. cbn [points_loop length Nat.ltb Nat.leb ex_track tl fst snd app rev].
  replace (1 - (1 - 0 - 1), 1 - (3 - 1) - 1) with (1, -2) by (f_equal; ring).
  replace (1 - (3 - 1), 1 - 0 - 1) with (-1, 0) by (f_equal; ring).
  replace (1 - 0, 3 - 1) with (1, 2) by (f_equal; ring).
  rewrite (ex_far (1, 2) (3, 0)) by (cbn; rewrite Rabs_left; lra).
  rewrite (ex_far (-1, 0) (1, 2)) by (cbn; rewrite Rabs_left; lra).
  rewrite (ex_far (1, -2) (-1, 0)) by (cbn; rewrite Rabs_right; lra).
  reflexivity.
Qed.

Lemma ex_cloud : cloud 2 ex_points (repeat 1 4).
Proof.
  split; [lia|]. split; [discriminate|]. split; [intros p [<-|[<-|[<-|[<-|[]]]]]; reflexivity|]. split; [reflexivity|].
  intros w [<-|[<-|[<-|[<-|[]]]]]; lra.
Qed.

Example ex_orbit : forall k, exists ellipse noise,
  find_closed_orbit (R * R) ex_get ex_set ex_same ex_track inv2 true 1000 (3, 0) ex_keys 4 (Some (S (S k))) =
    ([mkIteration ex_points [1; 0] ellipse (Some noise)], ORuntime) /\
  mean_noise noise = inr 4 /\ sigma_noise noise = inr 0.
Proof.
  intros k. set (all := [true; true; true; true]).
  assert (W : forall f, wsum ex_points [1; 1; 1; 1] all f = f [3; 0] + f [1; 2] + f [-1; 0] + f [1; -2]) by (intros; unfold wsum; cbn; ring).
  assert (M0 : wmean ex_points [1; 1; 1; 1] all 0 = 1) by (unfold wmean; rewrite !W; cbn; field).
  assert (M1 : wmean ex_points [1; 1; 1; 1] all 1 = 0) by (unfold wmean; rewrite !W; cbn; field).
  assert (V : forall i j, (i < 2)%nat -> (j < 2)%nat -> wcov ex_points [1; 1; 1; 1] all i j = if Nat.eqb i j then 2 else 0).
  { intros i j Hi Hj. destruct i as [|[|i]]; [| |lia]; (destruct j as [|[|j]]; [| |lia]); unfold wcov; rewrite ?M0, ?M1, !W; cbn; field. }
  assert (D : det_n 2 (wcov ex_points [1; 1; 1; 1] all) = 4).
  { cbn. rewrite !V by lia. cbn. ring. }
  destruct (C73_whole 2 inv2 1000 ex_points ex_cloud inv2_ok) as (r & Vi & centre & ellipse & noise & E & Lc & _ & Mc & _ & Pr & Er & HV & En & Em).
  { change (0 < det_n 2 (wcov ex_points [1; 1; 1; 1] all)). rewrite D. lra. }
  { left. change (INR 4 * sqrt (det_n 2 (wcov ex_points [1; 1; 1; 1] all)) < 1000). rewrite D.
    replace (sqrt 4) with 2 by (symmetry; apply sqrt_lem_1; lra). cbn. lra. }
  change (r ^ 2 = det_n 2 (wcov ex_points [1; 1; 1; 1] all)) in Er. rewrite D in Er.
  assert (R2 : r = 2) by nra. subst r. cbn in Em. replace ((1 + 1) * 2) with 4 in Em by ring.
  assert (Ec : centre = [1; 0]).
  { destruct centre as [|a [|b [|c l]]]; try discriminate. pose proof (Mc 0%nat ltac:(lia)) as A. pose proof (Mc 1%nat ltac:(lia)) as B.
    change (a = wmean ex_points [1; 1; 1; 1] all 0) in A. change (b = wmean ex_points [1; 1; 1; 1] all 1) in B. rewrite A, B, M0, M1. reflexivity. }
  assert (Vv : forall i j, (i < 2)%nat -> (j < 2)%nat -> Vi i j = if Nat.eqb i j then 1 / 2 else 0).
  { intros i j Hi Hj. pose proof (HV i j Hi Hj) as X. change (sum_n 2 (fun k => wcov ex_points [1; 1; 1; 1] all i k * Vi k j) = if Nat.eqb i j then 1 else 0) in X.
    cbn [sum_n] in X. rewrite !V in X by lia. destruct i as [|[|i]]; [| |lia]; (destruct j as [|[|j]]; [| |lia]); cbn in X |- *; lra. }
  assert (N : noise = [4; 4; 4; 4]).
  { rewrite En. change (repeat 1 (length ex_points)) with [1; 1; 1; 1]. change (repeat true (length ex_points)) with all.
    cbn [map ex_points]. unfold distance. cbn [sum_n nth]. rewrite !M0, !M1, !Vv by lia. cbn [Nat.eqb]. repeat f_equal; field. }
  assert (Es : sigma_noise noise = inr 0).
  { rewrite N. unfold sigma_noise. cbn. unfold rltb. destruct (Rlt_dec _ _); [|reflexivity]. exfalso. lra. }
  exists ellipse, noise. split; [|auto]. cbn [find_closed_orbit]. cbn [orbit_loop]. rewrite ex_get_points. cbv zeta. rewrite E. cbn [it_noise it_centre].
  rewrite Em, Es. unfold rltb. destruct (Rlt_dec 4 0); [lra|]. rewrite Ec.
  assert (Sf : ex_same (1 - 0, 1 - 1) (1, 0) = true).
  { replace (1 - 0, 1 - 1) with (1, 0) by (f_equal; ring). apply ex_refl. }
  assert (G : get_points (R * R) ex_get ex_same ex_track true 4 ex_keys (1, 0) 4 = inl ORuntime).
  { unfold get_points. cbn [points_loop length Nat.ltb Nat.leb ex_track tl fst snd app rev]. rewrite Sf. reflexivity. }
  change (move (R * R) ex_set (3, 0) ex_keys [1; 0]) with (1, 0). rewrite G. reflexivity.
Qed.

(** Where C73_end is used up iterations: one iteration allowed, one made. *)
Example ex_orbit_one : exists it,
  find_closed_orbit (R * R) ex_get ex_set ex_same ex_track inv2 true 1000 (3, 0) ex_keys 4 (Some 1%nat) = ([it], OStop) /\
  check_closed_orbit (R * R) ex_get ex_set ex_same ex_track inv2 true 1000 (3, 0) [("x", 3); ("px", 0)]%string 4 = inr it.
Proof.
  destruct (ex_orbit 0) as (ellipse & noise & E & Em & Es). exists (calculate_ellipse inv2 1000 ex_points).
  cbn [find_closed_orbit] in *. cbn [orbit_loop] in *. rewrite ex_get_points in *. cbv zeta in *. split.
  - destruct (it_noise (calculate_ellipse inv2 1000 ex_points)) as [nn|]; [|discriminate].
    destruct (mean_noise nn); [discriminate|]. destruct (sigma_noise nn); [discriminate|]. destruct (rltb _ _); reflexivity.
  - unfold check_closed_orbit. change (move (R * R) ex_set (3, 0) (map fst [("x"%string, 3); ("px"%string, 0)]) (map snd [("x"%string, 3); ("px"%string, 0)])) with (3, 0).
    change (map fst [("x"%string, 3); ("px"%string, 0)]) with ex_keys. rewrite ex_get_points. reflexivity.
Qed.

(** A particle that only drifts: no ellipse, ValueError. *)
Example ex_drift : forall k,
  find_closed_orbit (R * R) ex_get ex_set ex_same (fun h => [h; (fst h + 1, snd h)]) inv2 true 1000 (0, 0) ex_keys 2 (Some (S k)) =
    ([], OValue).
Proof.
  intros k. set (pts := [[0; 0]; [0 + 1; 0]]).
  assert (G : get_points (R * R) ex_get ex_same (fun h => [h; (fst h + 1, snd h)]) true 2 ex_keys (0, 0) 2 = inr pts).
  { unfold get_points. cbn [points_loop length Nat.ltb Nat.leb tl fst snd app rev].
    rewrite (ex_far (0 + 1, 0) (0, 0)) by (cbn; rewrite Rabs_right; lra). reflexivity. }
  refine (proj2 (C73_singular_refuted (R * R) ex_get ex_set ex_same (fun h => [h; (fst h + 1, snd h)]) inv2 1000 (0, 0) ex_keys 2 k ex_refl (le_S _ _ (le_n _)) (fun h => eq_refl) pts G) _).
  assert (Cl : cloud 2 pts (repeat 1 (length pts))).
  { split; [lia|]. split; [discriminate|]. split; [intros p [<-|[<-|[]]]; reflexivity|]. split; [reflexivity|]. intros w [<-|[<-|[]]]; lra. }
  destruct (C73_noise 2 inv2 1000 pts Cl inv2_ok) as (kept & _ & _ & _ & _ & _ & _ & N & _). apply N.
  assert (Z : forall S f, (forall p, In p pts -> f p = 0) -> wsum pts (repeat 1 (length pts)) S f = 0).
  { intros S f Hf. rewrite (wsum_ext _ _ _ f (fun _ => 0 * 1)).
    - rewrite wsum_scale. ring.
    - intros p Hp. rewrite Hf by auto. ring. }
  assert (M : wmean pts (repeat 1 (length pts)) kept 1 = 0).
  { unfold wmean. rewrite Z; [unfold Rdiv; ring|]. intros p [<-|[<-|[]]]; reflexivity. }
  assert (V : forall i, wcov pts (repeat 1 (length pts)) kept i 1 = 0).
  { intros i. unfold wcov. rewrite Z; [unfold Rdiv; ring|]. intros p [<-|[<-|[]]]; rewrite M; cbn; ring. }
  cbn. rewrite !V. ring.
Qed.
