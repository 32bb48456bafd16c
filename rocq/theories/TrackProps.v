(** C45, C46: tracking in subprocesses. *)
From Coq Require Import ZArith List Bool Lia.
From Verif Require Import TrackModel TrackSpec TrackProofs MultiProofs.
Import ListNotations.
Open Scope list_scope.

(** * C46 *)
Section C46.
Context {H T : Type}.
Variable dl : Dialect.
Variable track : list H -> option (list T).

(** A value is only returned when the last child has ended, is the whole content of the
    output file, and is the result of tracking a list of hits that was set in this
    directory; for every history of calls, every schedule and crash. *)
Theorem C46_result p i e1 e2 s' v :
  get_return_value dl track (calls dl track p) i e1 e2 = (s', Ret v) ->
  exists d k h, out_dir (calls dl track p) i = Some d /\
    child (calls dl track p) i = Some k /\ ended (calls dl track p) k /\
    output s' d = Some (Whole v) /\ set_in dl track p d h /\ track h = Some v.
Proof.
  intros E. eapply get_ret in E; [|apply calls_inv].
  destruct E as (d & k & O & C & En & Ou & (h & S & Th) & _).
  exists d, k, h. auto 7.
Qed.

(** If one list was set in the directory, it is the one that was tracked. *)
Theorem C46_only p i d h e1 e2 s' v :
  out_dir (calls dl track p) i = Some d ->
  (forall h', set_in dl track p d h' -> h' = h) ->
  get_return_value dl track (calls dl track p) i e1 e2 = (s', Ret v) ->
  track h = Some v.
Proof.
  intros O U E. apply C46_result in E. destruct E as (d' & k & h' & O' & _ & _ & _ & S & Th).
  rewrite O in O'. inversion O'; subst. rewrite <- (U h'); auto.
Qed.

(** After new_out_dir no result of an earlier set_hit_list is returned: the tracked list was
    set after it, for an object with the same directory. *)
Theorem C46_fresh p0 p1 i e1 e2 s' v :
  i < length (procs (calls dl track p0)) -> keeps_dir p1 i ->
  get_return_value dl track (calls dl track (p0 ++ NewOutDir i :: p1)) i e1 e2 = (s', Ret v) ->
  exists q j h es r, p1 = q ++ SetHits j h es :: r /\
    out_dir (calls dl track (p0 ++ NewOutDir i :: q)) j =
    out_dir (calls dl track (p0 ++ NewOutDir i :: p1)) i /\
    track h = Some v.
Proof.
  intros L K E. apply C46_result in E. destruct E as (d & k & h & O & _ & _ & _ & S & Th).
  destruct (set_in_after dl track p0 p1 i d h L K O S) as (q & j & es & r & E & Oj).
  exists q, j, h, es, r. split; auto. split; auto. congruence.
Qed.

(** RuntimeError before the start, while the child runs, and if it left no output file. *)
Theorem C46_not_yet p i d e1 e2 :
  out_dir (calls dl track p) i = Some d ->
  (child (calls dl track p) i = None \/
   exists k, child (calls dl track p) i = Some k /\
             (running (calls dl track p) k \/
              (ended (calls dl track p) k /\ output (calls dl track p) d = None /\ e1 = []))) ->
  snd (get_return_value dl track (calls dl track p) i e1 e2) = Exc RuntimeErr.
Proof.
  intros O [C | (k & C & [R | (E & N & ->)])].
  - eapply get_unstarted; eauto using calls_inv.
  - eapply get_running; eauto.
  - eapply get_no_output; eauto using calls_inv.
Qed.

(** A child that is not killed delivers: after new_out_dir, set_hit_list(h) and start, once the
    child has made its six steps, get_return_value returns what tracking h gives, whatever
    other children do. *)
Theorem C46_completes p i h v e1 e2 e3 es g1 g2 :
  text_pickle dl = true ->
  i < length (procs (calls dl track p)) -> child (calls dl track p) i = None ->
  track h = Some v ->
  let k := length (kids (calls dl track p)) in
  survives k es -> 6 <= moves k es -> survives k g1 -> survives k g2 ->
  let q := p ++ [NewOutDir i; Wait e1; SetHits i h e2; Wait e3; Start i true; Wait es] in
  snd (get_return_value dl track (calls dl track q) i g1 g2) = Ret v.
Proof.
  intros TP L C Th k S M S1 S2 q.
  set (s := calls dl track p) in *.
  assert (I : Inv track any s) by (eapply inv_any; apply calls_inv).
  set (s1 := events dl track (new_out_dir s i) e1).
  assert (C1 : child s1 i = None) by (unfold s1; rewrite child_events, child_new_out_dir; auto).
  assert (L1 : i < length (procs s1)).
  { unfold s1. destruct (events_frame dl track e1 (new_out_dir s i)) as (-> & _).
    unfold new_out_dir. destruct (nth_error (procs s) i); auto. simpl. rewrite set_at_length; auto. }
  pose proof (set_hits_ret dl track s1 i h e2 TP L1 C1) as R2.
  destruct (set_hits_procs dl track s1 i h e2 i) as (O2 & C2 & L2 & D2 & K2 & W2).
  destruct (set_hit_list dl track s1 i h e2) as [s2 r2] eqn:E2. simpl in *. subst r2.
  assert (C3 : child (events dl track s2 e3) i = None) by (rewrite child_events; congruence).
  assert (L3 : i < length (procs (events dl track s2 e3))).
  { destruct (events_frame dl track e3 s2) as (-> & _). lia. }
  pose proof (start_ret (events dl track s2 e3) i L3 C3) as R3.
  destruct (start (events dl track s2 e3) i true) as [s3 r3] eqn:E3. simpl in R3. subst r3.
  destruct (make_job dl track any s i e1 h e2 e3 s2 s3 TP I L C E2 E3) as (J & K3 & _).
  assert (Q : calls dl track q = events dl track s3 es).
  { unfold q, calls. rewrite fold_left_app. simpl. fold (calls dl track p). fold s. fold s1.
    rewrite E2. simpl. rewrite E3. auto. }
  rewrite Q. fold k in J.
  pose proof (job_events dl track false s3 i k _ h es TP (or_intror S) J) as J'.
  destruct (get_return_value dl track (events dl track s3 es) i g1 g2) as [s4 r4] eqn:E4.
  destruct (job_get dl track false _ i k _ h g1 g2 s4 r4 TP (or_intror (conj S1 S2)) J' E4) as [_ G].
  simpl. apply G; auto. apply rank0_ended.
  - destruct (events_frame dl track es s3) as (_ & _ & _ & ->). lia.
  - pose proof (rank_events dl track es s3 k). assert (rank s3 k <= 6); [|lia].
    unfold rank. destruct (nth_error (kids s3) k) as [kid|]; [|lia].
    destruct (k_phase kid); simpl; lia.
Qed.

(** start() of an object whose child is running raises, and starts nothing. *)
Theorem C46_start_twice p i k found :
  child (calls dl track p) i = Some k -> running (calls dl track p) k ->
  let (s', r) := start (calls dl track p) i found in
  r = Exc RuntimeErr /\ kids s' = kids (calls dl track p) /\ dirs s' = dirs (calls dl track p).
Proof.
  intros C R. unfold start. destruct (is_alive (calls dl track p) i) as [s1 al] eqn:E.
  apply is_alive_spec in E. destruct E as (e1 & e2 & _ & _ & _ & _ & _ & _ & Hd & _).
  destruct al; auto. destruct (Hd eq_refl _ C) as [c Hc]. rewrite (running_poll _ _ R) in Hc.
  discriminate.
Qed.

(** kill() and terminate() without timeout return only when the child has ended; before start
    they raise. *)
Theorem C46_kill p i rounds :
  (forall d, out_dir (calls dl track p) i = Some d -> child (calls dl track p) i = None ->
     snd (kill dl track rounds None (calls dl track p) i) = Exc RuntimeErr) /\
  (forall k s', child (calls dl track p) i = Some k ->
     kill dl track rounds None (calls dl track p) i = (s', Ret true) -> ended s' k).
Proof.
  set (s := calls dl track p). split.
  - intros d O C. unfold kill, out_dir, child in *. destruct (nth_error (procs s) i) as [q|]; try discriminate.
    rewrite C. auto.
  - intros k s' C. unfold kill.
    destruct (nth_error (procs s) i) as [q|] eqn:G; [|intros E; inversion E].
    destruct (p_child q); [|intros E; inversion E].
    assert (X : forall rounds s0 s1, child s0 i = Some k ->
      join dl track rounds None s0 i = (s1, true) -> ended s1 k).
    { clear. induction rounds as [|es rounds IH]; intros s0 s1 C; simpl;
        pose proof (child_is_alive s0 i i) as A; pose proof (ended_is_alive s0 i k) as B;
        destruct (is_alive s0 i) as [s2 al] eqn:E; simpl in A, B;
        apply is_alive_spec in E; destruct E as (_ & _ & _ & _ & _ & _ & _ & _ & Hd & _);
        destruct al; simpl; try discriminate.
      - intros X; inversion X; subst. destruct (Hd eq_refl _ C) as [c Hc].
        apply B. eapply poll_ended; eauto.
      - apply IH. rewrite child_events. congruence.
      - intros X; inversion X; subst. destruct (Hd eq_refl _ C) as [c Hc].
        apply B. eapply poll_ended; eauto. }
    destruct (join dl track rounds None s i) as [s1 b] eqn:Ej. destruct b; intros E; inversion E; subst.
    apply ended_is_alive. eapply X; eauto.
Qed.

End C46.

(** In Python 3, which setup.py requires, no call ever returns a value: set_hit_list always
    raises TypeError, and no history leads to a result. *)
Theorem C46_python3 {H T : Type} (track : list H -> option (list T)) p i h e1 e2 :
  (i < length (procs (calls python3 track p)) ->
   snd (set_hit_list python3 track (calls python3 track p) i h e1) = Exc TypeErr) /\
  (forall v, snd (get_return_value python3 track (calls python3 track p) i e1 e2) <> Ret v).
Proof.
  split.
  - intros L. unfold set_hit_list.
    destruct (nth_error (procs (calls python3 track p)) i) eqn:G; [auto|].
    apply nth_error_None in G. lia.
  - intros v E. destruct (get_return_value python3 track (calls python3 track p) i e1 e2) as [s' r] eqn:G.
    simpl in E. subst r. eapply get_ret in G; [|apply calls_inv].
    destruct G as (d & k & _ & _ & _ & _ & _ & X & _). discriminate.
Qed.

(** The full claim "no value is returned for a child that died before doing anything" is false,
    even with the Python 2 left-overs repaired: the child removes the old output from its
    working directory instead of the output directory (and only after reading its input),
    so after a second start and a kill the result of the first run is returned. *)
Theorem C46_stale_refuted :
  ~ forall (H T : Type) (track : list H -> option (list T)) (p : list Call) i c,
      let s := calls repaired track p in
      snd (start s i true) = Ret tt ->
      snd (get_return_value repaired track
             (call repaired track (call repaired track s (Start i true)) (Wait [Die (length (kids s)) c]))
             i [] []) = Exc RuntimeErr.
Proof.
  intros X.
  specialize (X nat nat (fun l => Some (map S l))
    [New; SetHits 0 [1] []; Start 0 true; Wait (repeat (Step 0) 6)] 0 (-9)%Z eq_refl).
  discriminate.
Qed.

(** set_hit_list after a start raises (a Popen can not be pickled) but has already changed the
    object and destroyed the input file; a restart then fails and the old result is
    returned for the new list. *)
Theorem C46_reset_refuted :
  ~ forall (H T : Type) (track : list H -> option (list T)) (p : list Call) i h v s',
      option_map p_hits (nth_error (procs (calls repaired track p)) i) = Some (Some h) ->
      get_return_value repaired track (calls repaired track p) i [] [] = (s', Ret v) ->
      track h = Some v.
Proof.
  intros X.
  specialize (X nat nat (fun l => Some (map S l))
    [New; SetHits 0 [1] []; Start 0 true; Wait (repeat (Step 0) 6); SetHits 0 [7] []; Start 0 true;
     Wait [Step 1]]
    0 [7] [2]
    (fst (get_return_value repaired (fun l => Some (map S l)) (calls repaired (fun l => Some (map S l))
      [New; SetHits 0 [1] []; Start 0 true; Wait (repeat (Step 0) 6); SetHits 0 [7] []; Start 0 true;
     Wait [Step 1]]) 0 [] []))
    eq_refl (eq_trans (surjective_pairing _) eq_refl)).
  discriminate.
Qed.

(** A child that dies while it writes leaves a truncated file: EOFError, not RuntimeError. *)
Theorem C46_truncated_refuted :
  ~ forall (H T : Type) (track : list H -> option (list T)) (p : list Call) i e,
      snd (get_return_value repaired track (calls repaired track p) i [] []) = Exc e ->
      i < length (procs (calls repaired track p)) -> e = RuntimeErr.
Proof.
  intros X.
  specialize (X nat nat (fun l => Some (map S l))
    [New; SetHits 0 [1] []; Start 0 true; Wait (repeat (Step 0) 4 ++ [Die 0 (-9)%Z])] 0 EOFErr eq_refl).
  assert (0 < 1) by lia. specialize (X H). discriminate.
Qed.

(** Example: two objects, interleaved children, the second killed and restarted. *)
Definition ex_track (l : list nat) : option (list nat) := Some (map (fun x => x * x) l).
Definition ex_prog : list (@Call nat) :=
  [New; New; SetHits 0 [1; 2] []; SetHits 1 [3; 4; 5] []; Start 0 true; Start 1 true;
   Wait [Step 0; Step 1; Step 1; Step 0; Step 0; Step 1; Step 0; Step 0; Step 1; Step 0; Die 1 (-9)%Z];
   Start 1 true; Wait (repeat (Step 2) 7)].
Example C46_ex :
  snd (get_return_value repaired ex_track (calls repaired ex_track ex_prog) 0 [] []) = Ret [1; 4] /\
  snd (get_return_value repaired ex_track (calls repaired ex_track ex_prog) 1 [] []) = Ret [9; 16; 25] /\
  child (calls repaired ex_track ex_prog) 1 = Some 2 /\
  snd (start (calls repaired ex_track (firstn 6 ex_prog)) 0 true) = Exc RuntimeErr /\
  snd (get_return_value repaired ex_track (calls repaired ex_track (firstn 6 ex_prog)) 1 [] [])
    = Exc RuntimeErr.
Proof. repeat split. Qed.

(** Example: after new_out_dir the old result is gone. *)
Example C46_ex_fresh :
  snd (get_return_value repaired ex_track (calls repaired ex_track (ex_prog ++ [NewOutDir 1])) 1 [] [])
    = Exc RuntimeErr /\
  snd (kill repaired ex_track [[Step 0]; [Die 0 (-9)%Z]; []] None
         (calls repaired ex_track (firstn 6 ex_prog)) 0) = Ret true.
Proof. repeat split. Qed.

(** * C45 *)
Section C45.
Context {H T : Type}.
Variable dl : Dialect.
Variable track : list H -> option (list T).

Lemma async_jobs n hits sched p job :
  floor_div dl = true -> text_pickle dl = true -> (0 < n)%Z ->
  job < length (procs (calls dl track p)) -> child (calls dl track p) job = None ->
  (forall x, In x sched -> snd x = true) ->
  exists s' l,
    track_many_async dl track n hits sched (calls dl track p) job = (s', map (@jj H) l, Ret tt) /\
    concat (map (@jh H) l) = hits /\ length l = Z.to_nat n /\ balanced (map (@jh H) l) /\
    map (@jk H) l = seq (length (kids (calls dl track p))) (Z.to_nat n) /\
    length (kids s') = length (kids (calls dl track p)) + Z.to_nat n /\
    (forall died, died = true \/ Forall calm_pass sched -> Forall (JobX track died s') l).
Proof.
  intros FD TP N L C Sf.
  assert (I : Inv track any (calls dl track p)) by (eapply inv_any; apply calls_inv).
  unfold track_many_async. destruct (Z.eqb_spec n 0); [lia|]. destruct (Z.ltb_spec n 0); [lia|].
  rewrite FD. set (len := Z.of_nat (length hits)).
  assert (Hm : (0 <= len mod n < n)%Z) by (apply Z.mod_pos_bound; lia).
  assert (Hq : (0 <= len / n)%Z) by (apply Z.div_pos; unfold len; lia).
  assert (Hl : len = (Z.of_nat (Z.to_nat n) * Z.of_nat (Z.to_nat (len / n)) + len mod n)%Z).
  { rewrite !Z2Nat.id by lia. apply Z.div_mod. lia. }
  destruct (start_jobs_spec dl track (Z.to_nat n) (Z.to_nat (len / n)) (len mod n) hits sched
              (calls dl track p) job [] TP I L C Sf) as (s' & l & E & Hh & _ & Hk & Lk & Hj & _).
  exists s', l. split; auto. rewrite Hh.
  split. { apply chunks_concat; auto. rewrite Z2Nat.id; lia. }
  split. { rewrite <- (map_length (@jh H)), Hh. apply chunks_length. }
  split; [|auto]. intros a b A B.
  assert (R : (0 <= len mod n <= Z.of_nat (Z.to_nat n))%Z) by (rewrite Z2Nat.id; lia).
  destruct (chunks_sizes track _ _ _ _ _ R Hl A), (chunks_sizes track _ _ _ _ _ R Hl B); lia.
Qed.

(** track_many_async cuts the input into n pieces that concatenate to it, of sizes that differ
    by at most one, gives each to its own object and starts a child for each. *)
Theorem C45_chunks n hits sched p job :
  floor_div dl = true -> text_pickle dl = true -> (0 < n)%Z ->
  job < length (procs (calls dl track p)) -> child (calls dl track p) job = None ->
  (forall x, In x sched -> snd x = true) ->
  exists s' jobs pieces,
    track_many_async dl track n hits sched (calls dl track p) job = (s', jobs, Ret tt) /\
    concat pieces = hits /\ length pieces = Z.to_nat n /\ balanced pieces /\
    length jobs = Z.to_nat n /\
    (forall m j, nth_error jobs m = Some j ->
       exists q k, nth_error (procs s') j = Some q /\ p_hits q = nth_error pieces m /\
                   p_child q = Some k /\ k = length (kids (calls dl track p)) + m).
Proof.
  intros FD TP N L C Sf.
  destruct (async_jobs n hits sched p job FD TP N L C Sf) as (s' & l & E & Hc & Hn & Hb & Hk & _ & Hj).
  exists s', (map (@jj H) l), (map (@jh H) l). rewrite !map_length.
  split; auto. split; auto. split; auto. split; auto. split; auto.
  intros m j Hm. rewrite nth_error_map in *. destruct (nth_error l m) as [x|] eqn:G; try discriminate.
  simpl in Hm. inversion Hm; subst j.
  specialize (Hj true (or_introl eq_refl)). rewrite Forall_forall in Hj.
  destruct (j_proc _ _ _ _ _ _ _ (Hj x (nth_error_In _ _ G))) as [e Gp].
  eexists; exists (jk x). split; [exact Gp|]. simpl. split; auto. split; auto.
  assert (X : nth_error (map (@jk H) l) m = Some (jk x)) by (rewrite nth_error_map, G; auto).
  assert (m < Z.to_nat n) by (rewrite <- Hn; eapply some_lt; eauto).
  rewrite Hk in X. rewrite (nth_error_nth' _ 0) in X by (rewrite seq_length; auto).
  rewrite seq_nth in X by auto. congruence.
Qed.

(** For every schedule and every pattern of deaths of the children, the value returned by
    track_many consists of the complete results of some of the pieces, in order; the only
    other outcome is the EOFError of a truncated file. *)
Theorem C45_some n hits sched rounds csched p job s' r :
  floor_div dl = true -> text_pickle dl = true -> (0 < n)%Z ->
  job < length (procs (calls dl track p)) -> child (calls dl track p) job = None ->
  (forall x, In x sched -> snd x = true) ->
  track_many dl track n hits sched rounds csched (calls dl track p) job = (s', Some r) ->
  r = Exc EOFErr \/
  exists pieces v, concat pieces = hits /\ length pieces = Z.to_nat n /\
                   selected track pieces v /\ r = Ret v.
Proof.
  intros FD TP N L C Sf E.
  destruct (async_jobs n hits sched p job FD TP N L C Sf) as (s1 & l & Ea & Hc & Hn & Hb & Hk & _ & Hj).
  unfold track_many in E. rewrite Ea in E.
  pose proof (wait_jobs_jobs dl track true rounds (map (@jj H) l) s1 l TP (or_introl eq_refl)
                (Hj true (or_introl eq_refl))) as W.
  destruct (wait_jobs dl track rounds (map (@jj H) l) s1) as [s2 back]. simpl in W.
  destruct back; [|inversion E].
  destruct (collect dl track (map (@jj H) l) csched s2 []) as [s3 r3] eqn:Ec. inversion E; subst.
  destruct (collect_spec dl track true l csched s2 [] s' r TP (or_introl eq_refl) W Ec) as [G _].
  destruct G as [(_ & ->)|(v & S & ->)]; auto. right. exists (map (@jh H) l), v.
  rewrite map_length. auto.
Qed.

(** The same when the results are collected early, after any further events, instead of when
    the loop of track_many has seen all children end. *)
Theorem C45_early n hits sched es csched p job s' jobs s'' r :
  floor_div dl = true -> text_pickle dl = true -> (0 < n)%Z ->
  job < length (procs (calls dl track p)) -> child (calls dl track p) job = None ->
  (forall x, In x sched -> snd x = true) ->
  track_many_async dl track n hits sched (calls dl track p) job = (s', jobs, Ret tt) ->
  collect dl track jobs csched (events dl track s' es) [] = (s'', r) ->
  r = Exc EOFErr \/
  exists pieces v, concat pieces = hits /\ length pieces = Z.to_nat n /\
                   selected track pieces v /\ r = Ret v.
Proof.
  intros FD TP N L C Sf Ea Ec.
  destruct (async_jobs n hits sched p job FD TP N L C Sf) as (s1 & l & E & Hc & Hn & Hb & Hk & _ & Hj).
  rewrite E in Ea.
  assert (s' = s1) by congruence. assert (jobs = map (@jj H) l) by congruence. subst. clear Ea.
  assert (W : Forall (JobX track true (events dl track s1 es)) l) by (apply jobs_events; auto).
  destruct (collect_spec dl track true l csched _ [] s'' r TP (or_introl eq_refl) W Ec) as [G _].
  destruct G as [(_ & ->)|(v & S & ->)]; auto. right. exists (map (@jh H) l), v.
  rewrite map_length. auto.
Qed.

(** If no child is killed, track_many returns the result of tracking every hit, in order, for
    every schedule in which it returns. *)
Theorem C45_all n hits one sched rounds csched p job s' r :
  floor_div dl = true -> text_pickle dl = true -> (0 < n)%Z ->
  job < length (procs (calls dl track p)) -> child (calls dl track p) job = None ->
  (forall x, In x sched -> snd x = true) ->
  elementwise track one ->
  Forall calm_pass sched -> Forall (Forall calm) rounds -> Forall calm_pair csched ->
  track_many dl track n hits sched rounds csched (calls dl track p) job = (s', Some r) ->
  r = Ret (map one hits).
Proof.
  intros FD TP N L C Sf El C1 C2 C3 E.
  destruct (async_jobs n hits sched p job FD TP N L C Sf) as (s1 & l & Ea & Hc & Hn & Hb & Hk & _ & Hj).
  unfold track_many in E. rewrite Ea in E.
  specialize (Hj false (or_intror C1)).
  pose proof (wait_jobs_jobs dl track false rounds (map (@jj H) l) s1 l TP (or_intror C2) Hj) as W.
  destruct (wait_jobs dl track rounds (map (@jj H) l) s1) as [s2 back] eqn:Ew. simpl in W.
  destruct back; [|inversion E].
  destruct (wait_jobs_ended dl track rounds _ _ _ Ew) as [_ En].
  destruct (collect dl track (map (@jj H) l) csched s2 []) as [s3 r3] eqn:Ec. inversion E; subst s3 r3.
  destruct (collect_spec dl track false l csched s2 [] s' r TP (or_intror C3) W Ec) as [_ G].
  destruct G as (vs & F & ->); auto.
  - intros x X. apply (En (jj x)); [apply in_map; auto|].
    rewrite Forall_forall in Hj. destruct (j_proc _ _ _ _ _ _ _ (Hj x X)) as [e Gp].
    unfold child. rewrite Gp. auto.
  - intros x X. rewrite El. discriminate.
  - f_equal. simpl. rewrite <- Hc. clear -F El. induction F; simpl; auto.
    rewrite map_app, <- IHF. f_equal. rewrite El in H0. congruence.
Qed.

(** track_many returns once every child has made its six steps. *)
Theorem C45_returns n hits sched rounds last csched p job :
  floor_div dl = true -> text_pickle dl = true -> (0 < n)%Z ->
  job < length (procs (calls dl track p)) -> child (calls dl track p) job = None ->
  (forall x, In x sched -> snd x = true) ->
  (forall m, m < Z.to_nat n ->
     6 <= moves (length (kids (calls dl track p)) + m) (concat (concat rounds))) ->
  snd (track_many dl track n hits sched (rounds ++ [last]) csched (calls dl track p) job) <> None.
Proof.
  intros FD TP N L C Sf M.
  destruct (async_jobs n hits sched p job FD TP N L C Sf) as (s1 & l & Ea & Hc & Hn & Hb & Hk & Lk & Hj).
  unfold track_many. rewrite Ea.
  assert (W := wait_returns dl track rounds last (map (@jj H) l) s1).
  destruct (wait_jobs dl track (rounds ++ [last]) (map (@jj H) l) s1) as [s2 back]. simpl in W.
  rewrite W.
  - destruct (collect dl track (map (@jj H) l) csched s2 []). discriminate.
  - intros j Hi. apply in_map_iff in Hi. destruct Hi as (x & <- & X).
    specialize (Hj true (or_introl eq_refl)). rewrite Forall_forall in Hj. specialize (Hj x X).
    destruct (j_proc _ _ _ _ _ _ _ Hj) as [e Gp]. exists (jk x).
    split; [unfold child; rewrite Gp; auto|].
    assert (Y : In (jk x) (map (@jk H) l)) by (apply in_map; auto).
    rewrite Hk in Y. apply in_seq in Y. split; [lia|].
    specialize (M (jk x - length (kids (calls dl track p)))).
    replace (length (kids (calls dl track p)) + (jk x - length (kids (calls dl track p))))
      with (jk x) in M by lia.
    assert (rank s1 (jk x) <= 6); [|lia].
    unfold rank. destruct (nth_error (kids s1) (jk x)) as [kid|]; [|lia].
    destruct (k_phase kid); simpl; lia.
Qed.

End C45.

(** In Python 3 every track_many with at least one process raises TypeError, whatever the hits
    are; without the integer division only n < 0 (no process, no result) does not raise. *)
Theorem C45_python3 {H T : Type} (track : list H -> option (list T)) n hits sched rounds csched s job :
  snd (track_many python3 track n hits sched rounds csched s job) =
  if (0 <? n)%Z then Some (Exc TypeErr)
  else if (n =? 0)%Z then Some (Exc ZeroDivErr) else Some (Ret []).
Proof.
  unfold track_many, track_many_async.
  destruct (Z.eqb_spec n 0) as [-> | N]; auto.
  destruct (Z.ltb_spec n 0).
  - destruct (Z.ltb_spec 0 n); [lia|]. destruct rounds; auto.
  - destruct (Z.ltb_spec 0 n); [auto|lia].
Qed.

(** Example: seven hits on three children, with an interleaved schedule; and the same where the
    second child is killed while it tracks. *)
Definition ex_rounds : list (list (list Event)) :=
  [[[Step 2; Step 2]; [Step 0; Step 1]]; [[Step 0; Step 2; Step 2]; [Step 0]];
   [[Step 0; Step 0; Step 2; Step 2]]; [[Step 0; Step 1; Step 1; Step 1; Step 1]]; [[Step 1]]; []].
Definition ex_kill : list (list (list Event)) :=
  [[[Step 2; Step 2]; [Step 0; Step 1]]; [[Step 0; Step 2; Die 1 (-9)%Z; Step 2]; [Step 0]];
   [[Step 0; Step 0; Step 2; Step 2]]; [[Step 0]]; []].
Example C45_ex :
  let s := calls repaired ex_track [New] in
  snd (track_many repaired ex_track 3 [1; 2; 3; 4; 5; 6; 7] [] ex_rounds [] s 0)
    = Some (Ret [1; 4; 9; 16; 25; 36; 49]) /\
  snd (track_many repaired ex_track 3 [1; 2; 3; 4; 5; 6; 7] [] ex_kill [] s 0)
    = Some (Ret [1; 4; 9; 36; 49]) /\
  map (fun m => 6 <=? moves (length (kids s) + m) (concat (concat ex_rounds))) [0; 1; 2]
    = [true; true; true] /\
  elementwise ex_track (fun x => x * x).
Proof. repeat split. Qed.

Print Assumptions C45_all.
Print Assumptions C45_returns.
Print Assumptions C46_completes.
Print Assumptions C46_fresh.
