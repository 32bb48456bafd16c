(** C90: subprocesses of xboa.common. *)
From Coq Require Import List Bool Arith.
From Verif Require Import SubprocModel SubprocSpec SubprocProofs.
Import ListNotations.

(** One call of subprocess: exactly one process is started, and it runs; what is returned is the Process
    object or the pid that stands for it.  Without one, OSError, and only if os.fork fails. *)
Theorem C90_started c a w w' r : subprocess c a w = (w', r) ->
  match r with
  | RProcess i => has_mp c = true /\ ctor a = true /\
      exists n, start a = Some n /\ nth_error (mps w') i = Some (MStarted n) /\
                table w' = table w ++ [{| pid := n; child := true; running := true; soft := is_soft a |}]
  | RPid n => fork a = Some n /\ ~ (has_mp c = true /\ ctor a = true /\ start a <> None) /\
      table w' = table w ++ [{| pid := n; child := true; running := true; soft := is_soft a |}]
  | RRaise e => e = EOS /\ fork a = None /\ table w' = table w
  | RNone => False
  end.
Proof.
  assert (F : forall v, fallback c a v = (w', r) -> table v = table w ->
    ~ (has_mp c = true /\ ctor a = true /\ start a <> None) ->
    match r with
    | RProcess i => False
    | RPid n => fork a = Some n /\ ~ (has_mp c = true /\ ctor a = true /\ start a <> None) /\
        table w' = table w ++ [{| pid := n; child := true; running := true; soft := is_soft a |}]
    | RRaise e => e = EOS /\ fork a = None /\ table w' = table w
    | RNone => False
    end).
  { intros v. unfold fallback.
    replace (match has_root c with Some e => e | None => EImport end) with EImport
      by (unfold has_root; now destruct (has_ROOT c)).
    destruct (fork a) as [n|]; intros [= <- <-] E N; cbn [add_fk spawn set_table table];
      rewrite ?E; now repeat split. }
  unfold subprocess, has_multiprocessing. destruct (has_mp c) eqn:M.
  2:{ intros H. specialize (F w H eq_refl). destruct r; try apply F; intuition discriminate. }
  destruct (ctor a) eqn:K.
  2:{ intros H. specialize (F w H eq_refl). destruct r; try apply F; intuition discriminate. }
  destruct (start a) as [n|] eqn:T.
  - intros [= <- <-]. split; [reflexivity|]. split; [reflexivity|]. exists n. split; [reflexivity|].
    cbn [add_mp spawn set_table mps table]. split; [|reflexivity].
    rewrite nth_error_app2, Nat.sub_diag by apply le_n. reflexivity.
  - intros H. specialize (F _ H eq_refl). destruct r; try apply F; intuition congruence.
Qed.

Definition ex_cfg : Config := {| has_mp := true; has_ROOT := true; has_plt := true |}.
Definition ex_nomp : Config := {| has_mp := false; has_ROOT := true; has_plt := true |}.
Definition ex_try (n : nat) (s : bool) : Try := {| ctor := true; start := Some n; fork := Some n; is_soft := s |}.
Definition ex_fail (n : nat) : Try := {| ctor := true; start := None; fork := Some n; is_soft := true |}.
Definition ex_unmade (n : nat) : Try := {| ctor := false; start := None; fork := Some n; is_soft := false |}.
Definition ex_table : list Proc := [{| pid := 1; child := false; running := true; soft := false |}].

Example C90_started_ex :
  snd (subprocess ex_cfg (ex_try 7 true) (world0 ex_table)) = RProcess 0 /\
  snd (subprocess ex_cfg (ex_unmade 7) (world0 ex_table)) = RPid 7.
Proof. now split. Qed.

(** The documentation: "if multiprocessing is not available and ROOT is installed, this routine will throw an
    ImportError".  It never does: it forks. *)
Theorem C90_root_refuted :
  (forall c a w, snd (subprocess c a w) <> RRaise EImport) /\
  (forall c a w n, has_mp c = false -> has_ROOT c = true -> fork a = Some n ->
    exists w', subprocess c a w = (w', RPid n) /\ alive n (table w')).
Proof.
  split.
  - intros c a w E. destruct (subprocess c a w) as [w' r] eqn:S. cbn [snd] in E. subst r.
    apply C90_started in S as [S _]. discriminate.
  - intros c a w n M B F.
    destruct (subprocess c a w) as [w' r] eqn:S. pose proof (C90_started _ _ _ _ _ S) as H.
    unfold subprocess, has_multiprocessing, fallback, has_root in S. rewrite M, B, F in S.
    injection S as <- <-. eexists. split; [reflexivity|]. destruct H as (_ & _ & H). rewrite H.
    eexists. split; [apply in_or_app; right; left; reflexivity|]. now split.
Qed.

(** kill_all_subprocesses after any program, on a system that starts every Process object and with a caller
    that closes none and waits for no pid: it raises nothing, touches no other process, and every process
    that subprocess started ends, except those made with multiprocessing that ignore SIGTERM.  A second call
    changes nothing. *)
Theorem C90_kill c t os w rs w' r :
  fresh t -> Forall (plain c) os -> runs c (world0 t) os w rs -> step c OKill w = (w', r) ->
  r = RNone /\ others (table w') = others (table w) /\ map pid (table w') = map pid (table w) /\
  (forall p, In p (ours (table w')) -> running p = true ->
     In p (table w) /\ soft p = false /\ ~ In (RPid (pid p)) rs) /\
  step c OKill w' = (w', RNone).
Proof.
  intros F G R. pose proof (inv_runs _ _ _ _ _ R G (inv_world0 t F)) as I.
  cbn [step]. rewrite kill_all_inv by exact I. intros [= <- <-].
  split; [reflexivity|]. cbn [set_table table]. split; [|split; [|split]].
  - assert (K : forall l, (forall p, In p l -> In p (table w)) -> others (map (doom w) l) = others l).
    { induction l as [|p l IH]; intros L; [reflexivity|]. cbn [map others filter].
      rewrite doom_child. fold (others (map (doom w) l)) (others l).
      rewrite IH by (intros q Q; apply L; now right). destruct (child p) eqn:C; [reflexivity|].
      cbn [negb]. f_equal. apply doom_other; [exact I| |exact C]. apply L. now left. }
    now apply K.
  - rewrite map_map. apply map_ext. apply doom_pid.
  - intros p P A. unfold ours in P. apply filter_In in P as [P C].
    apply in_map_iff in P as (q & <- & Q). rewrite doom_child in C.
    destruct (doom_running w q I Q C A) as (S1 & S2 & S3). rewrite doom_soft, doom_pid.
    split; [|split; [exact S1|]].
    + assert (E : doom w q = q); [|now rewrite E].
      unfold doom, hit. destruct (mem (pid q) (started (mps w))).
      * rewrite sig_pid. destruct (mem (pid q) (fks w)) eqn:X.
        -- apply mem_in in X. contradiction.
        -- cbn [sig]. now rewrite S1.
      * destruct (mem (pid q) (fks w)) eqn:X; [|reflexivity]. apply mem_in in X. contradiction.
    + intros H. apply S3. now apply (proj2 (runs_fks _ _ _ _ _ R)).
  - assert (I' : Inv (set_table w (map (doom w) (table w)))).
    { apply inv_map; [exact I|apply doom_pid|apply doom_child]. }
    rewrite kill_all_inv by exact I'. f_equal. unfold set_table. cbn [table mps fks flag_in flag_out].
    f_equal. rewrite map_map. apply map_ext. intros p.
    unfold doom. cbn [mps fks]. unfold hit.
    destruct (mem (pid p) (started (mps w))) eqn:E1; rewrite ?sig_pid;
      destruct (mem (pid p) (fks w)) eqn:E2; rewrite ?sig_pid, ?E1; rewrite ?sig_pid, ?E2; try reflexivity;
      cbn [sig]; destruct (soft p) eqn:E; cbn [stopped soft pid]; rewrite ?E; cbn [stopped soft pid];
      rewrite ?E2; reflexivity.
Qed.

(** With multiprocessing missing, all are ended. *)
Corollary C90_kill_fork c t os w rs w' r :
  has_mp c = false -> fresh t -> Forall (plain c) os -> runs c (world0 t) os w rs -> step c OKill w = (w', r) ->
  forall n, In (RPid n) rs -> ~ In n (map pid (others (table w))) -> ~ alive n (table w').
Proof.
  intros M F G R S n N O (p & P & E & A).
  destruct (C90_kill c t os w rs w' r F G R S) as (_ & H1 & _ & H2 & _).
  destruct (child p) eqn:C.
  - destruct (H2 p) as (_ & _ & H); [now apply filter_In|exact A|]. apply H. now rewrite E.
  - apply O. rewrite <- H1, <- E. apply in_map, filter_In. now rewrite C.
Qed.

(** One that is soft, one that is not, one that was forked, one that had ended. *)
Definition ex_ops : list Op :=
  [OSub (ex_try 10 true); OSub (ex_try 11 false); OSub (ex_unmade 12); OShow (ex_try 13 true);
   OOther 14 true; OEnds 13; OJoin 2; OEnds 10].

Example C90_kill_ex : fresh ex_table /\ Forall (plain ex_cfg) ex_ops /\
  exists w rs, runs ex_cfg (world0 ex_table) ex_ops w rs /\
    rs = [RProcess 0; RProcess 1; RPid 12; RNone; RNone; RNone; RNone; RNone] /\
    map pid (table w) = [1; 10; 11; 12; 14] /\
    map (fun p => (pid p, running p)) (table (fst (step ex_cfg OKill w))) =
      [(1, true); (10, false); (11, true); (12, false); (14, true)].
Proof.
  split; [split; [reflexivity|repeat constructor; cbn; tauto]|].
  split.
  { repeat constructor; cbn; unfold fails_to_start; cbn; intuition discriminate. }
  do 2 eexists. split.
  { repeat (eapply runs_cons; [repeat constructor|reflexivity|]). apply runs_nil. }
  now repeat split.
Qed.

(** A Process that does not start: subprocess forks, and from then on kill_all_subprocesses always raises, and
    ends no process that was started by that call or later. *)
Theorem C90_failed_start_refuted c t os w rs a w1 r1 os2 w2 rs2 w3 r3 :
  fresh t -> Forall (plain c) os -> runs c (world0 t) os w rs ->
  fails_to_start c a -> step c (OSub a) w = (w1, r1) -> runs c w1 os2 w2 rs2 -> step c OKill w2 = (w3, r3) ->
  (r3 = RRaise EAttribute \/ r3 = RRaise EValue) /\
  forall p, In p (table w2) -> ~ In (pid p) (map pid (table w)) -> In p (table w3).
Proof.
  intros F G R (M & K & T) S R2 S3.
  pose proof (inv_runs _ _ _ _ _ R G (inv_world0 t F)) as I.
  cbn [step] in S. unfold subprocess, has_multiprocessing in S. rewrite M, K, T in S.
  apply fallback_fks in S as (S & _). cbn [add_mp mps] in S.
  destruct (runs_grows _ _ _ _ _ R2) as (l1 & l2 & E & L). rewrite S in L.
  apply Forall2_app_inv_l in L as (a1 & a2 & L1 & L2 & ->).
  inversion L2 as [|? m ? ? Lm Lr]; subst. inversion Lr; subst. rewrite <- app_assoc in E. cbn [app] in E.
  assert (B : ~ good m).
  { destruct Lm as [-> |[(k & ? & ?)| ->]]; [intros []|discriminate|intros []]. }
  cbn [step] in S3. unfold kill_all in S3. rewrite E in S3.
  destruct (kill_mps (a1 ++ m :: l2) (table w2)) as [t' e] eqn:X.
  destruct (kill_mps_stops a1 m l2 B _ _ _ X) as (E1 & E2 & E3).
  destruct e as [e|]; [|congruence]. injection S3 as <- <-. split.
  - destruct E2 as [[= ->]|[= ->]]; auto.
  - intros p P N. cbn [set_table table]. apply E3; [exact P|]. intros Q. apply N.
    apply (later_started _ _ L1) in Q.
    destruct (inv_present w I (pid p)) as (q & Q1 & _ & Q2); [apply in_or_app; now left|].
    rewrite <- Q2. now apply in_map.
Qed.

Example C90_failed_start_ex : exists w rs,
  runs ex_cfg (world0 ex_table) [OSub (ex_try 10 true); OSub (ex_fail 11); OSub (ex_try 12 true)] w rs /\
  rs = [RProcess 0; RPid 11; RProcess 2] /\
  snd (step ex_cfg OKill w) = RRaise EAttribute /\
  map (fun p => (pid p, running p)) (table (fst (step ex_cfg OKill w))) =
    [(1, true); (10, false); (11, true); (12, true)].
Proof.
  do 2 eexists. split.
  { repeat (eapply runs_cons; [repeat constructor|reflexivity|]). apply runs_nil. }
  now repeat split.
Qed.

(** A caller that closes a Process object after it ended: kill_all_subprocesses raises and does not end the
    process started afterwards. *)
Theorem C90_close_refuted : exists os w rs, runs ex_cfg (world0 ex_table) os w rs /\
  Forall (fun o => match o with OSub a => ~ fails_to_start ex_cfg a | OWait _ => False | _ => True end) os /\
  ~ In (RRaise EValue) rs /\ In (OClose 0) os /\
  snd (step ex_cfg OKill w) = RRaise EValue /\ alive 11 (table (fst (step ex_cfg OKill w))).
Proof.
  exists [OSub (ex_try 10 true); OEnds 10; OJoin 0; OClose 0; OSub (ex_try 11 true)].
  do 2 eexists. split.
  { repeat (eapply runs_cons; [repeat constructor|reflexivity|]). apply runs_nil. }
  split.
  { repeat constructor; cbn; unfold fails_to_start; cbn; intuition discriminate. }
  split; [cbn; intuition discriminate|]. split; [cbn; tauto|]. split; [reflexivity|].
  eexists. split; [right; left; reflexivity|]. now split.
Qed.

(** A caller that waits for a pid that subprocess returned: kill_all_subprocesses ends a process of another
    program that was given the same pid; without one it raises, and the processes forked later run on. *)
Theorem C90_wait_refuted :
  (exists os w rs, runs ex_nomp (world0 ex_table) os w rs /\
     alive 10 (others (table w)) /\ ~ alive 10 (table (fst (step ex_nomp OKill w)))) /\
  (exists os w rs, runs ex_nomp (world0 ex_table) os w rs /\ rs = [RPid 10; RNone; RNone; RPid 11] /\
     snd (step ex_nomp OKill w) = RRaise EOS /\ alive 11 (table (fst (step ex_nomp OKill w)))).
Proof.
  split.
  - exists [OSub (ex_try 10 true); OEnds 10; OWait 10; OOther 10 false]. do 2 eexists. split.
    { repeat (eapply runs_cons; [repeat constructor|reflexivity|]). apply runs_nil. }
    split.
    + eexists. split; [right; left; reflexivity|]. now split.
    + intros (p & [<-|[]] & E & _). discriminate.
  - exists [OSub (ex_try 10 true); OEnds 10; OWait 10; OSub (ex_try 11 true)]. do 2 eexists. split.
    { repeat (eapply runs_cons; [repeat constructor|reflexivity|]). apply runs_nil. }
    split; [reflexivity|]. split; [reflexivity|].
    eexists. split; [right; left; reflexivity|]. now split.
Qed.

(** At exit: the kill, or nothing, as the last value of kill_subprocesses_at_exit in xboa.common._common. *)
Theorem C90_exit c t os w rs : runs c (world0 t) os w rs ->
  at_exit w = if last_module true os then step c OKill w else (w, RNone).
Proof. intros R. unfold at_exit. rewrite (runs_flag _ _ _ _ _ R). reflexivity. Qed.

Example C90_exit_ex : last_module true [OSetModule false; OKill] = false /\
  last_module true [OSetModule false; OSetModule true; OSetPackage false] = true.
Proof. now split. Qed.

(** "unless kill_subprocesses_at_exit is set to False": setting it in xboa.common, the module whose function
    it documents, has no effect. *)
Theorem C90_flag_refuted c t os w rs :
  runs c (world0 t) os w rs -> Forall (fun o => forall b, o <> OSetModule b) os ->
  at_exit w = step c OKill w /\
  exists w', step c (OSetPackage false) w = (w', RNone) /\ flag_out w' = false /\
    snd (at_exit w') = snd (at_exit w) /\ table (fst (at_exit w')) = table (fst (at_exit w)).
Proof.
  intros R N. rewrite (C90_exit _ _ _ _ _ R).
  assert (L : forall l b, Forall (fun o => forall b', o <> OSetModule b') l -> last_module b l = b).
  { induction l as [|o l IH]; intros b G; [reflexivity|]. inversion G as [|? ? G1 G2]; subst.
    destruct o; cbn [last_module]; try (now apply IH). now destruct (G1 b0). }
  rewrite L by exact N. split; [reflexivity|].
  eexists. split; [reflexivity|]. split; [reflexivity|].
  unfold at_exit. cbn [flag_in]. rewrite (runs_flag _ _ _ _ _ R). cbn [world0 flag_in]. rewrite L by exact N.
  cbn [step]. unfold kill_all. cbn [mps table fks].
  destruct (kill_mps (mps w) (table w)) as [t1 [e|]]; [now split|].
  destruct (kill_fks (fks w) t1) as [t2 [e|]]; now split.
Qed.

(** matplot_show_and_continue: None when a process shows the plots, else ImportError. *)
Theorem C90_show c a w w' r : show_and_continue c a w = (w', r) ->
  (r = RNone /\ has_plt c = true /\ exists n,
     (start a = Some n \/ fork a = Some n) /\
     table w' = table w ++ [{| pid := n; child := true; running := true; soft := is_soft a |}]) \/
  (r = RRaise EImport /\ table w' = table w /\ (has_plt c = false \/ fork a = None)).
Proof.
  unfold show_and_continue, has_matplot. destruct (has_plt c); [|intros [= <- <-]; right; auto].
  destruct (subprocess c a w) as [w1 r1] eqn:S. apply C90_started in S.
  destruct r1 as [i|n| |e].
  - intros [= <- <-]. left. destruct S as (_ & _ & n & S1 & _ & S2). eauto 7.
  - intros [= <- <-]. left. destruct S as (S1 & _ & S2). eauto 7.
  - destruct S.
  - intros [= <- <-]. right. destruct S as (_ & S1 & S2). auto.
Qed.

Example C90_show_ex :
  snd (show_and_continue ex_nomp (ex_try 3 true) (world0 ex_table)) = RNone /\
  snd (show_and_continue ex_nomp {| ctor := true; start := None; fork := None; is_soft := true |}
         (world0 ex_table)) = RRaise EImport.
Proof. now split. Qed.

Print Assumptions C90_started.
Print Assumptions C90_root_refuted.
Print Assumptions C90_kill.
Print Assumptions C90_kill_fork.
Print Assumptions C90_failed_start_refuted.
Print Assumptions C90_close_refuted.
Print Assumptions C90_wait_refuted.
Print Assumptions C90_exit.
Print Assumptions C90_flag_refuted.
Print Assumptions C90_show.
