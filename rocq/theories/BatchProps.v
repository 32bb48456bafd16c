(** C85: tracking in a batch queue (BSubProcess). *)
From Coq Require Import ZArith String List Bool Lia.
From Verif Require Import SubstModel TrackModel TrackProofs BatchModel BatchSpec BatchProofs.
Import ListNotations.
Open Scope list_scope.

(** A queue that prints like LSF; used for the examples. *)
Fixpoint dec_rev (fuel : nat) (n : Z) : Text :=
  match fuel with
  | O => []
  | S m => (48 + n mod 10)%Z :: (if (n <? 10)%Z then [] else dec_rev m (n / 10)%Z)
  end.
Definition dec (n : Z) : Text := rev (dec_rev (S (Z.to_nat n)) n).
Definition lsf_bsub (id : Z) : Text := text "Job <" ++ dec id ++ text "> is submitted to queue <lotus>.".
Definition lsf_end (s : JState) : Text :=
  match s with
  | Ended c => if (c =? 0)%Z then text "Done successfully. The CPU time used is 1.0 seconds."
               else text "Exited with exit code " ++ dec (Z.abs c) ++ text ". The CPU time used is 1.0 seconds."
  | _ => []
  end.
Definition lsf_bjobs (id : Z) (s : JState) : Text :=
  text "Job <" ++ dec id ++ text ">, User <u>, Project <default>, Status <" ++ word_of s ++
  text ">, Queue <lotus>, Command <xboa_tracking_process.py>" ++ lsf_end s.

Lemma dec_rev_ok fuel : forall n, (0 <= n)%Z -> (Z.to_nat n < fuel)%nat ->
  dec_rev fuel n <> [] /\ Forall (fun c => (48 <= c <= 57)%Z) (dec_rev fuel n) /\
  fold_right (fun c a => (10 * a + (c - 48))%Z) 0%Z (dec_rev fuel n) = n.
Proof.
  induction fuel as [|fuel IH]; intros n P L; [lia|]. cbn [dec_rev].
  pose proof (Z.mod_pos_bound n 10 ltac:(lia)) as B. pose proof (Z.div_mod n 10 ltac:(lia)) as D.
  split; [discriminate|]. destruct (n <? 10)%Z eqn:T.
  - apply Z.ltb_lt in T. split; [constructor; [lia|constructor]|]. cbn [fold_right].
    rewrite Z.mod_small by lia. lia.
  - apply Z.ltb_ge in T. assert (Q : (0 <= n / 10 < n)%Z) by (split; [apply Z.div_pos; lia|apply Z.div_lt; lia]).
    destruct (IH (n / 10)%Z) as (_ & F & V); [lia|lia|]. split; [constructor; [lia|exact F]|].
    cbn [fold_right]. rewrite V. lia.
Qed.
Lemma dec_numeral n : (0 <= n)%Z -> numeral (dec n) n.
Proof.
  intros P. destruct (dec_rev_ok (S (Z.to_nat n)) n P ltac:(lia)) as (N & F & V). unfold dec. repeat split.
  - intros E. apply N. rewrite <- (rev_involutive (dec_rev _ _)), E. reflexivity.
  - apply Forall_rev, F.
  - rewrite <- fold_left_rev_right, rev_involutive. exact V.
Qed.
Lemma dec_no n c : (c < 48 \/ 57 < c)%Z -> ~ In c (dec n).
Proof.
  intros C I. unfold dec in I. apply in_rev in I. revert I. generalize (S (Z.to_nat n)) as f0. intros f0. revert n.
  assert (X : forall f n, ~ In c (dec_rev f n)).
  { induction f as [|f IH]; intros n I; [exact I|]. cbn [dec_rev] in I.
    pose proof (Z.mod_pos_bound n 10 ltac:(lia)) as B. destruct I as [I|I]; [lia|].
    destruct (n <? 10)%Z; [exact I|]. exact (IH _ I). }
  intros n. apply X.
Qed.
Lemma lsf_bsub_clear : clear_bsub lsf_bsub.
Proof.
  intros id P. exists (text "Job "), (dec id), (text " is submitted to queue <lotus>.").
  split; [reflexivity|]. split; [apply dec_numeral, P|]. split; vm_compute; intuition discriminate.
Qed.

Lemma find_skip c k a r : ~ In c a ->
  find_text (c :: k) (a ++ r) = option_map (fun i => List.length a + i)%nat (find_text (c :: k) r).
Proof.
  induction a as [|d a IH]; intros N.
  - cbn [app List.length]. destruct (find_text (c :: k) r); reflexivity.
  - cbn [app find_text]. rewrite IH by (intros I; apply N; right; exact I).
    replace (starts_with (c :: k) (d :: a ++ r)) with false.
    2:{ cbn [starts_with]. replace (c =? d)%Z with false; [reflexivity|]. symmetry. apply Z.eqb_neq. intros ->. apply N. left. reflexivity. }
    destruct (find_text (c :: k) r); reflexivity.
Qed.
Lemma not_in_app (c : Z) a b : ~ In c a -> ~ In c b -> ~ In c (a ++ b).
Proof. intros A B I. apply in_app_iff in I. tauto. Qed.
Lemma first_word c k pre post : ~ In c pre -> first_stands (c :: k) (pre ++ (c :: k) ++ post) (List.length pre).
Proof.
  intros N. apply text_at. rewrite find_skip by exact N.
  assert (E : starts_with (c :: k) ((c :: k) ++ post) = true) by (apply stands_0; exists [], post; auto).
  cbn [app] in *. cbn [find_text]. rewrite E. cbn [option_map]. f_equal. lia.
Qed.
Ltac no_char := vm_compute; intuition discriminate.

Lemma word_char s : (forall w, s = Held w -> held_word w) -> ~ In 62%Z (word_of s).
Proof.
  intros Hw. destruct s as [| | |w|c|]; cbn [word_of]; try no_char.
  - apply (Hw w eq_refl).
  - destruct (c =? 0)%Z; no_char.
Qed.
Lemma lsf_bjobs_clear : clear_bjobs lsf_bjobs.
Proof.
  intros id s G Hw. split.
  - exists (text "Job <" ++ dec id ++ text ">, User <u>, Project <default>, "),
      (text ", Queue <lotus>, Command <xboa_tracking_process.py>" ++ lsf_end s).
    assert (E : lsf_bjobs id s = (text "Job <" ++ dec id ++ text ">, User <u>, Project <default>, ") ++
      text "Status <" ++ word_of s ++ text ">" ++ text ", Queue <lotus>, Command <xboa_tracking_process.py>" ++ lsf_end s).
    { unfold lsf_bjobs. rewrite <- !app_assoc. reflexivity. }
    split; [exact E|]. split.
    + rewrite E. apply (first_word 83%Z). apply not_in_app; [no_char|]. apply not_in_app; [apply dec_no; lia|no_char].
    + apply (first_char 62%Z). apply word_char, Hw.
  - destruct s as [| | |w|c|]; auto. cbn [word_of].
    set (A := text "Job <" ++ dec id).
    assert (NA : ~ In 101%Z A) by (apply not_in_app; [no_char|apply dec_no; lia]).
    destruct (c =? 0)%Z eqn:C0.
    + apply text_no. unfold lsf_bjobs. cbn [word_of lsf_end]. rewrite C0, app_assoc. fold A.
      change (text "exit code ") with (101%Z :: text "xit code "). rewrite find_skip by exact NA.
      vm_compute. reflexivity.
    + exists (dec (Z.abs c)). split; [|intros P; rewrite Z.abs_eq by exact P; apply dec_numeral, P].
      exists (A ++ text ">, User <u>, Project <default>, Status <EXIT>, Queue <lotus>, Command <xboa_tracking_process.py>Exited with "),
        (text " The CPU time used is 1.0 seconds.").
      assert (E : lsf_bjobs id (Ended c) = (A ++ text ">, User <u>, Project <default>, Status <EXIT>, Queue <lotus>, Command <xboa_tracking_process.py>Exited with ")
        ++ text "exit code " ++ dec (Z.abs c) ++ text "." ++ text " The CPU time used is 1.0 seconds.").
      { unfold lsf_bjobs. cbn [word_of lsf_end]. rewrite C0. unfold A. rewrite <- !app_assoc. reflexivity. }
      split; [exact E|]. split; [|apply (first_char 46%Z); apply dec_no; lia].
      apply text_at. rewrite E, <- app_assoc.
      change (text "exit code ") with (101%Z :: text "xit code "). rewrite find_skip by exact NA.
      rewrite app_length. cbn. reflexivity.
Qed.

Section C85.
Context {H V : Type}.
Variable bsub_text : Z -> Text.
Variable bjobs_text : Z -> JState -> Text.
Variable dl : Dialect.
Notation b_alive := (@b_alive H V bjobs_text).
Notation b_start := (@b_start H V bsub_text bjobs_text).
Notation b_get := (@b_get H V bjobs_text).
Notation b_join := (@b_join H V bjobs_text).
Notation b_calls := (@b_calls H V bsub_text bjobs_text dl).
Notation BCall := (@BCall H V).
Notation World := (@World H V).

(** What bjobs prints decides: without "Status <" and a ">" behind it is_alive raises
    ValueError, otherwise it says True exactly for the three words. *)
Theorem C85_status_text (w : World) i p id t : nth_error (q_procs w) i = Some p -> b_pid p = Some id ->
  bjobs bjobs_text w id = Some t ->
  ((forall r, ~ between t (text "Status <") (text ">") r) <-> snd (b_alive w i) = inl BValue) /\
  (forall r, between t (text "Status <") (text ">") r ->
     snd (b_alive w i) = inr true <-> r = text "PEND" \/ r = text "RUN" \/ r = text "WAIT") /\
  (forall r, between t (text "Status <") (text ">") r ->
     snd (b_alive w i) = inr false <-> ~ (r = text "PEND" \/ r = text "RUN" \/ r = text "WAIT")).
Proof.
  intros N P B. unfold BatchModel.b_alive. rewrite N, P, B. unfold read_status. rewrite <- substr_none.
  destruct (get_substr t (text "Status <") (text ">")) as [u|] eqn:G.
  - split; [|].
    + destruct (existsb (same u) alive_words); split; discriminate.
    + apply substr_some in G. split; intros r R; pose proof (between_unique _ _ _ _ _ G R) as <-;
        rewrite <- alive_word_iff; destruct (existsb (same u) alive_words); cbn [snd]; split; congruence.
  - split; [cbn [snd]; split; reflexivity|].
    pose proof (proj1 (substr_none _ _ _) G) as Q. split; intros r R; destruct (Q r R).
Qed.

(** With queues that print clearly: what is_alive says, and exitcode, for each state of the job. *)
Theorem C85_status n (l : list BCall) i p id : clear_bsub bsub_text -> clear_bjobs bjobs_text -> (0 <= n)%Z -> proper l ->
  nth_error (q_procs (b_calls n l)) i = Some p -> b_pid p = Some id ->
  exists j, In j (q_jobs (b_calls n l)) /\ j_id j = id /\ j_owner j = i /\
    let (w', r) := b_alive (b_calls n l) i in
    match j_state j with
    | Pending | Running | Waiting => r = inr true
    | Held _ => r = inr false
    | Ended c => r = inr false /\ exists p', nth_error (q_procs w') i = Some p' /\
        (c = 0%Z -> b_exit p' = Some Zero) /\
        (0 < c -> exists t, b_exit p' = Some (Words t) /\ numeral t c)%Z
    | Gone => r = inl BCalled
    end.
Proof.
  intros C B N0 Pr N P.
  pose proof (inv_calls bsub_text bjobs_text dl n l C N0) as I.
  pose proof (proper_calls bsub_text bjobs_text dl n l C N0 Pr) as PP.
  destruct (alive_state bjobs_text _ i p id B I PP N P) as (j & J & Ej & O & M). exists j. repeat split; auto.
  destruct (j_state j) as [| | |u|c|] eqn:S0; try (rewrite M; reflexivity).
  - destruct M as (x & M & _). rewrite M. reflexivity.
  - destruct M as (x & M & R). rewrite M. split; [reflexivity|].
    eexists. split; [cbn [set_p q_procs]; apply set_at_same; eapply some_lt; eauto|]. cbn [b_exit].
    destruct (B id (Ended c)) as (B1 & B2); [discriminate|discriminate|].
    unfold read_status in R. rewrite (proj2 (substr_some _ _ _ _) B1) in R.
    destruct (existsb _ alive_words); [discriminate|]. injection R as <-.
    destruct (c =? 0)%Z eqn:C0.
    + apply Z.eqb_eq in C0. split; [intros _|lia].
      unfold get_substr. rewrite (proj2 (text_no _ _) B2). reflexivity.
    + apply Z.eqb_neq in C0. split; [congruence|]. intros PC. destruct B2 as (t & B2 & B3).
      rewrite (proj2 (substr_some _ _ _ _) B2). exists t. split; [reflexivity|apply B3; lia].
Qed.

(** start: one new job with a new number, known to the process, or none and an error. *)
Theorem C85_submit n (l : list BCall) i es ok : clear_bsub bsub_text -> (0 <= n)%Z ->
  let w := b_calls n l in
  let (w', r) := b_start w i es ok in
  let names := map (fun j => (j_id j, j_owner j)) in
  match r with
  | inl _ => names (q_jobs w') = names (q_jobs w)
  | inr _ => exists id p, names (q_jobs w') = names (q_jobs w) ++ [(id, i)] /\ ~ In id (map j_id (q_jobs w)) /\
      nth_error (q_procs w') i = Some p /\ b_pid p = Some id
  end.
Proof.
  intros C N0 w. pose proof (inv_calls bsub_text bjobs_text dl n l C N0) as I. fold w in I.
  assert (K : forall w' : World, drift (fun _ => True) w w' ->
     map (fun j => (j_id j, j_owner j)) (q_jobs w') = map (fun j => (j_id j, j_owner j)) (q_jobs w)).
  { clear. induction 1 as [|w e w' X D IH|w j p x w' Nj P D IH]; [reflexivity| |].
    - rewrite IH. destruct e as [id s|id f|n1]; cbn [q_event].
      + cbn [q_jobs]. rewrite map_map. apply map_ext. intros j. destruct (j_id j =? id)%Z; [|reflexivity].
        unfold move. destruct (j_state j); destruct s; reflexivity.
      + destruct (job_of w id) as [k|]; [|reflexivity].
        destruct (j_state k); destruct (nth_error (q_procs w) (j_owner k)); reflexivity.
      + reflexivity.
    - rewrite IH. reflexivity. }
  destruct (start_cases bsub_text bjobs_text (fun _ => True) w i es ok C I) as [(D & e & E)|(w1 & p & A & Np & E)];
    [apply Forall_forall; auto| |].
  - destruct (b_start w i es ok) as [w' r]. cbn [fst snd] in *. subst r. apply K, D.
  - rewrite E. assert (D : drift (fun _ => True) w (q_events w1 es)).
    { eapply drift_trans; [|apply events_drift; apply Forall_forall; auto].
      pose proof (alive_drift bjobs_text (fun _ => True) w i) as DD. rewrite A in DD. exact DD. }
    pose proof (inv_drift _ _ _ D I) as I2. cbv zeta.
    exists (q_next (q_events w1 es)). eexists. cbn [submitted set_p q_jobs q_procs]. split; [|split; [|split]].
    + rewrite map_app, (K _ D). reflexivity.
    + intros J. assert (X : map j_id (q_jobs w) = map j_id (q_jobs (q_events w1 es))).
      { pose proof (f_equal (map fst) (K _ D)) as Y. rewrite !map_map in Y. symmetry. exact Y. }
      rewrite X in J. apply in_map_iff in J. destruct J as (j & Ej & J). pose proof (i_low _ I2 _ J). lia.
    + apply set_at_same. eapply some_lt; eauto.
    + reflexivity.
Qed.

(** A process never has two jobs that can still run, as long as the queue holds none back, and the one is the one
    it knows. *)
Theorem C85_one_job n (l : list BCall) j j' : clear_bsub bsub_text -> clear_bjobs bjobs_text -> (0 <= n)%Z -> unheld l ->
  In j (q_jobs (b_calls n l)) -> In j' (q_jobs (b_calls n l)) -> j_owner j = j_owner j' ->
  unfinished j -> unfinished j' ->
  j = j' /\ exists p, nth_error (q_procs (b_calls n l)) (j_owner j) = Some p /\ b_pid p = Some (j_id j).
Proof.
  intros C B N0 U J J' O Uj Uj'.
  pose proof (inv_calls bsub_text bjobs_text dl n l C N0) as I.
  pose proof (free_calls bsub_text bjobs_text dl n l C B N0 U) as F.
  assert (Q : forall k, unfinished k -> over (j_state k) = false).
  { intros k Uk. destruct (j_state k) as [| | |u|c|] eqn:S0; try reflexivity.
    - destruct (Uk c). contradiction.
    - destruct (Uk 0%Z). contradiction. }
  pose proof (i_own _ I _ J) as L. destruct (nth_error (q_procs (b_calls n l)) (j_owner j)) as [p|] eqn:N.
  2:{ apply nth_error_None in N. lia. }
  pose proof (f_pid _ F j p J (Q _ Uj) N) as P.
  assert (P' : b_pid p = Some (j_id j')) by (apply (f_pid _ F); auto; rewrite <- O; exact N).
  split; [|eauto]. apply (job_unique _ _ _ I J J'). congruence.
Qed.

(** kill and terminate ask the queue to end the job of the process, one of its own; they do not wait: is_alive says the
    same as before. *)
Theorem C85_kill n (l : list BCall) i : clear_bsub bsub_text -> (0 <= n)%Z ->
  let w := b_calls n l in
  let (w', r) := b_kill w i in
  q_jobs w' = q_jobs w /\ q_procs w' = q_procs w /\ snd (b_alive w' i) = snd (b_alive w i) /\
  match r with
  | inr _ => exists j, In j (q_jobs w) /\ j_owner j = i /\ q_asked w' = q_asked w ++ [j_id j]
  | inl _ => q_asked w' = q_asked w
  end.
Proof.
  intros C N0 w. pose proof (inv_calls bsub_text bjobs_text dl n l C N0) as I. fold w in I.
  unfold b_kill. destruct (nth_error (q_procs w) i) as [p|] eqn:N; [|auto].
  destruct (b_pid p) as [id|] eqn:P; [|auto].
  destruct (i_pid _ I _ _ _ N P) as (j & J & E & O). cbn [q_jobs q_procs q_asked]. split; [reflexivity|]. split; [reflexivity|]. split.
  - unfold BatchModel.b_alive. cbn [q_procs]. rewrite N, P.
    change (bjobs bjobs_text _ id) with (bjobs bjobs_text w id).
    destruct (bjobs bjobs_text w id) as [t|]; [|reflexivity]. destruct (read_status t) as [[[|] e]|]; reflexivity.
  - exists j. rewrite E. auto.
Qed.

(** The value of get_return_value was written by a job of this process; no job of the process can still run; and
    whatever the queue does the output stays as it is. *)
Theorem C85_value n (l : list BCall) i e1 e2 v w' : clear_bsub bsub_text -> clear_bjobs bjobs_text -> (0 <= n)%Z ->
  unheld l -> Forall free_event (e1 ++ e2) ->
  b_get (b_calls n l) i e1 e2 = (w', inr v) ->
  (exists j, In j (q_jobs w') /\ j_owner j = i /\ In (Output (j_id j) (Whole v)) (concat (map call_events l))) /\
  (forall j, In j (q_jobs w') -> j_owner j = i -> ~ unfinished j) /\
  (forall es, exists p, nth_error (q_procs (q_events w' es)) i = Some p /\ b_out p = Some (Whole v)).
Proof.
  intros C B N0 U Fe G.
  pose proof (inv_calls bsub_text bjobs_text dl n l C N0) as I.
  pose proof (free_calls bsub_text bjobs_text dl n l C B N0 U) as F.
  pose proof (origin_calls bsub_text bjobs_text dl n l C N0) as T.
  destruct (get_cases bjobs_text _ _ _ _ _ _ G) as (w1 & A & -> & _ & (p & N & Q)).
  destruct (alive_jobs bjobs_text _ _ _ _ A) as (EJ & _).
  pose proof (free_dead bjobs_text _ _ _ B I F A) as D. rewrite <- EJ in D.
  destruct (nth_error (q_procs w1) i) as [p1|] eqn:N1.
  2:{ exfalso. assert (LL : List.length (q_procs (q_events (q_events w1 e1) e2)) = List.length (q_procs w1)).
      { unfold q_events. rewrite <- fold_left_app. generalize (e1 ++ e2). clear. intros es. revert w1.
        induction es as [|e es IH]; intros w1; [reflexivity|]. cbn. rewrite IH. apply event_length. }
      apply nth_error_None in N1. apply some_lt in N. lia. }
  pose proof (events_out e1 w1 i p1 D N1) as N2.
  pose proof (over_later e1 w1 i D) as D2.
  pose proof (events_out e2 _ i p1 D2 N2) as N3. rewrite N in N3. injection N3 as <-.
  pose proof (over_later e2 _ i D2) as D3.
  split; [|split].
  - assert (O1 : Origin (concat (map call_events l)) w1).
    { pose proof (alive_drift bjobs_text (fun e => In e (concat (map call_events l))) (b_calls n l) i) as DD. rewrite A in DD.
      exact (origin_drift _ _ _ DD T). }
    destruct (O1 _ _ _ N1 Q) as (id & j & X & J & Ej & O).
    assert (K : forall es (w : World) k, In k (q_jobs w) ->
       exists k', In k' (q_jobs (q_events w es)) /\ j_id k' = j_id k /\ j_owner k' = j_owner k).
    { clear. induction es as [|e es IH]; intros w k K; [exists k; auto|]. cbn.
      destruct (event_jobs_fwd w e k K) as (k1 & K1 & A & B). destruct (IH _ _ K1) as (k2 & K2 & A2 & B2).
      exists k2. repeat split; auto; congruence. }
    destruct (K e1 _ _ J) as (j1 & J1 & A1 & B1). destruct (K e2 _ _ J1) as (j2 & J2 & A2 & B2).
    exists j2. repeat split; auto; [congruence|]. rewrite A2, A1, Ej. exact X.
  - intros j J O Uj. specialize (D3 _ J O). destruct (j_state j) as [| | |u|c|] eqn:S0; try discriminate.
    + destruct (Uj c). contradiction.
    + destruct (Uj 0%Z). contradiction.
  - intros es. exists p. split; [apply events_out; auto|exact Q].
Qed.

(** join without a timeout comes back only when no job of the process can still run; and it does come back if its jobs
    end and are not forgotten before it has looked. *)
Theorem C85_join n (l : list BCall) i rounds w' : clear_bsub bsub_text -> clear_bjobs bjobs_text -> (0 <= n)%Z ->
  unheld l -> Forall free_event (concat rounds) ->
  b_join rounds None (b_calls n l) i = (w', inr true) ->
  forall j, In j (q_jobs w') -> j_owner j = i -> ~ unfinished j.
Proof.
  intros C B N0 U Fe E j J O Uj.
  pose proof (inv_calls bsub_text bjobs_text dl n l C N0) as I.
  pose proof (free_calls bsub_text bjobs_text dl n l C B N0 U) as F.
  pose proof (join_over bjobs_text rounds None _ i w' eq_refl B I F Fe E j J O) as Q.
  destruct (j_state j) as [| | |u|c|] eqn:S0; try discriminate.
  - destruct (Uj c). contradiction.
  - destruct (Uj 0%Z). contradiction.
Qed.
Theorem C85_join_returns n (l : list BCall) i rounds : clear_bsub bsub_text -> clear_bjobs bjobs_text -> (0 <= n)%Z ->
  unheld l -> Forall free_event (concat rounds) -> (i < List.length (q_procs (b_calls n l)))%nat ->
  (forall j, In j (q_jobs (q_events (b_calls n l) (concat rounds))) -> j_owner j = i -> exists c, j_state j = Ended c) ->
  exists w', b_join rounds None (b_calls n l) i = (w', inr true).
Proof.
  intros C B N0 U Fe L Q. apply join_returns; auto; [apply inv_calls|apply free_calls]; auto.
Qed.

(** Once the queue has forgotten the job of a process, the process is stuck: whatever the program does, is_alive, start,
    join and get_return_value raise CalledProcessError. *)
Theorem C85_forgotten n (l l' : list BCall) i p j : clear_bsub bsub_text -> (0 <= n)%Z ->
  nth_error (q_procs (b_calls n l)) i = Some p -> b_pid p = Some (j_id j) ->
  In j (q_jobs (b_calls n l)) -> j_state j = Gone ->
  let w := b_calls n (l ++ l') in
  snd (b_alive w i) = inl BCalled /\
  (forall es ok, snd (b_start w i es ok) = inl BCalled) /\
  (forall r t, snd (b_join r t w i) = inl BCalled) /\
  (forall e1 e2, snd (b_get w i e1 e2) = inl BCalled).
Proof.
  intros C N0 N P J G w.
  assert (L : Lost i (j_id j) w /\ Inv w).
  { unfold w. induction l' as [|c l' IH] using rev_ind.
    - rewrite app_nil_r. split; [|apply inv_calls; auto]. split; eauto.
    - destruct IH as (IH & II). rewrite app_assoc. unfold b_calls. rewrite fold_left_app.
      split; [apply lost_call|apply inv_call]; auto. }
  destruct L as (L & I). pose proof (lost_alive bjobs_text _ _ _ I L) as A.
  split; [rewrite A; reflexivity|]. split; [|split].
  - intros es ok. unfold BatchModel.b_start. rewrite A. reflexivity.
  - intros r t. destruct r; cbn [BatchModel.b_join]; rewrite A; reflexivity.
  - intros e1 e2. unfold BatchModel.b_get. rewrite A. reflexivity.
Qed.

(** The pickled process a job reads has the hits set last; setting them does not change what
    is known of the job. *)
Theorem C85_hits n (l : list BCall) i h : clear_bsub bsub_text -> (0 <= n)%Z ->
  let w := b_calls n l in
  (forall p, nth_error (q_procs w) i = Some p -> b_jar p = Some (Whole (b_hits p))) /\
  (forall p, nth_error (q_procs w) i = Some p -> exists p', nth_error (q_procs (fst (b_set_hits w i h))) i = Some p' /\
     b_hits p' = Some h /\ b_pid p' = b_pid p /\ b_exit p' = b_exit p /\ b_out p' = b_out p /\
     snd (b_set_hits w i h) = inr tt).
Proof.
  intros C N0 w. split.
  - intros p N. exact (pickled_calls bsub_text bjobs_text dl n l C N0 _ _ N).
  - intros p N. unfold b_set_hits. rewrite N. eexists. cbn [fst set_p q_procs].
    split; [apply set_at_same; eapply some_lt; eauto|]. auto 6.
Qed.

(** Errors: before start; and when the job has ended without output, or leaving half of it. *)
Theorem C85_errors n (l : list BCall) i p : clear_bsub bsub_text -> clear_bjobs bjobs_text -> (0 <= n)%Z -> proper l ->
  let w := b_calls n l in
  nth_error (q_procs w) i = Some p ->
  (b_pid p = None -> b_alive w i = (w, inr false) /\ snd (b_kill w i) = inl BRuntime /\
     forall e1 e2, snd (b_get w i e1 e2) = inl BRuntime) /\
  (forall j c, In j (q_jobs w) -> b_pid p = Some (j_id j) -> j_state j = Ended c ->
     (b_out p = None -> snd (b_get w i [] []) = inl BRuntime) /\
     (b_out p = Some Truncated -> snd (b_get w i [] []) = inl BEOF) /\
     (forall v, b_out p = Some (Whole v) -> snd (b_get w i [] []) = inr v)).
Proof.
  intros C B N0 Pr w N.
  pose proof (inv_calls bsub_text bjobs_text dl n l C N0) as I. fold w in I.
  pose proof (proper_calls bsub_text bjobs_text dl n l C N0 Pr) as PP. fold w in PP.
  split.
  - intros P. assert (A : b_alive w i = (w, inr false)) by (unfold BatchModel.b_alive; rewrite N, P; reflexivity).
    split; [exact A|]. split; [unfold b_kill; rewrite N, P; reflexivity|].
    intros e1 e2. unfold BatchModel.b_get. rewrite A, N.
    destruct (b_exit p) as [x|] eqn:X; [|reflexivity].
    destruct (i_exit _ I _ _ N) as []; [congruence|exact P].
  - intros j c J P S0.
    destruct (alive_state bjobs_text w i p _ B I PP N P) as (k & K & E & _ & M).
    assert (k = j) as -> by (eapply job_unique; eauto). rewrite S0 in M. destruct M as (x & M & _).
    assert (G : nth_error (q_procs (set_p w i (mkBProc (Some (j_id j)) (Some x) (b_hits p) (b_jar p) (b_out p)))) i
                = Some (mkBProc (Some (j_id j)) (Some x) (b_hits p) (b_jar p) (b_out p))).
    { cbn [set_p q_procs]. apply set_at_same. eapply some_lt; eauto. }
    unfold BatchModel.b_get. rewrite M, G. cbn [b_exit q_events fold_left]. rewrite G. cbn [b_out].
    repeat split; [intros O|intros O|intros v O]; rewrite O; try reflexivity; rewrite ?G; cbn [b_out]; rewrite ?O; try reflexivity.
Qed.

(** Under Python 3 no BSubProcess can be made. *)
Theorem C85_python3 n (l : list BCall) : text_pickle dl = false ->
  q_procs (b_calls n l) = [] /\ q_jobs (b_calls n l) = [] /\
  snd (b_new dl (b_calls n l) true) = inl BType /\ snd (b_new dl (b_calls n l) false) = inl BImport.
Proof.
  intros T.
  assert (K : q_procs (b_calls n l) = [] /\ q_jobs (b_calls n l) = []).
  { induction l as [|c l IH] using rev_ind; [auto|]. unfold b_calls. rewrite fold_left_app.
    change (fold_left _ l _) with (b_calls n l). destruct (b_calls n l) as [ps js m a]. cbn [q_procs q_jobs] in IH.
    destruct IH as (-> & ->).
    assert (E : forall es m a, exists m', q_events (mkWorld [] [] m a : World) es = mkWorld [] [] m' a).
    { clear. induction es as [|e es IH]; intros m a; [eexists; reflexivity|]. cbn.
      destruct e as [id s|id f|k]; cbn; apply IH. }
    assert (A : forall m i, b_alive (mkWorld [] [] m a) i = (mkWorld [] [] m a, inl BIndex)).
    { intros m' i. unfold BatchModel.b_alive. cbn [q_procs]. destruct i; reflexivity. }
    cbn [fold_left]. destruct c as [f|i h|i es ok|i|i|i r t|i e1 e2|es]; cbn [b_call].
    - unfold b_new. rewrite T. destruct f; auto.
    - unfold b_set_hits. cbn [q_procs]. destruct i; auto.
    - unfold BatchModel.b_start. rewrite A. auto.
    - rewrite A. auto.
    - unfold b_kill. cbn [q_procs]. destruct i; auto.
    - destruct r; cbn [BatchModel.b_join]; rewrite A; auto.
    - unfold BatchModel.b_get. rewrite A. auto.
    - destruct (E es m a) as (m' & ->). auto. }
  destruct K as (K1 & K2). repeat split; auto; unfold b_new; rewrite T; reflexivity.
Qed.
End C85.

(** * Cases *)
Notation lsf n l := (@b_calls Z Z lsf_bsub lsf_bjobs repaired n l).
Definition ex_one : list (@BCall Z Z) :=
  [BNew true; BSetHits 0 [1; 2]%Z; BWait [Others 2]; BStart 0 [Others 1] true; BWait [Move 10 Running; Output 10 Truncated]].
Definition ex_done : list (@BCall Z Z) := ex_one ++ [BWait [Output 10 (Whole 5%Z); Move 10 (Ended 0)]].

Example C85_submit_ex : exists p, nth_error (q_procs (lsf 7 ex_one)) 0 = Some p /\ b_pid p = Some 10%Z /\
  q_jobs (lsf 7 ex_one) = [mkJob 10 0 Running].
Proof. eexists. split; [vm_compute; reflexivity|]. split; vm_compute; reflexivity. Qed.
Example C85_status_ex :
  snd (b_alive lsf_bjobs (lsf 7 ex_one) 0) = inr true /\ snd (b_alive lsf_bjobs (lsf 7 ex_done) 0) = inr false /\
  option_map (fun p => b_exit p) (nth_error (q_procs (lsf 7 (ex_one ++ [BWait [Move 10 (Ended 137)]; BAlive 0]))) 0)
    = Some (Some (Words (text "137"))).
Proof. repeat split; vm_compute; reflexivity. Qed.
Example C85_one_job_ex : snd (b_start lsf_bsub lsf_bjobs (lsf 7 ex_one) 0 [] true) = inl BRuntime /\
  snd (b_start lsf_bsub lsf_bjobs (lsf 7 ex_done) 0 [] true) = inr tt.
Proof. split; vm_compute; reflexivity. Qed.
Example C85_kill_ex : q_asked (fst (b_kill (lsf 7 ex_one) 0)) = [10%Z] /\
  snd (b_alive lsf_bjobs (fst (b_kill (lsf 7 ex_one) 0)) 0) = inr true.
Proof. split; vm_compute; reflexivity. Qed.
Example C85_value_ex : snd (b_get lsf_bjobs (lsf 7 ex_done) 0 [] [Move 10 Gone]) = inr 5%Z /\
  snd (b_get lsf_bjobs (lsf 7 ex_one) 0 [] []) = inl BRuntime /\ unheld ex_done.
Proof.
  split; [vm_compute; reflexivity|]. split; [vm_compute; reflexivity|].
  unfold unheld, ex_done, ex_one. repeat constructor.
Qed.
Example C85_join_ex : snd (b_join lsf_bjobs [[]; [Output 10 (Whole 5%Z)]; [Move 10 (Ended 0)]] None (lsf 7 ex_one) 0) = inr true.
Proof. vm_compute. reflexivity. Qed.
Example C85_forgotten_ex : snd (b_get lsf_bjobs (lsf 7 (ex_done ++ [BWait [Move 10 Gone]])) 0 [] []) = inl BCalled.
Proof. vm_compute. reflexivity. Qed.

Example C85_hits_ex : option_map (fun p => b_jar p) (nth_error (q_procs (lsf 7 ex_done)) 0) = Some (Some (Whole (Some [1; 2]%Z))).
Proof. vm_compute. reflexivity. Qed.
Example C85_errors_ex : snd (b_get lsf_bjobs (lsf 7 [BNew true]) 0 [] []) = inl BRuntime /\
  snd (b_get lsf_bjobs (lsf 7 (ex_one ++ [BWait [Move 10 (Ended 1)]])) 0 [] []) = inl BEOF.
Proof. split; vm_compute; reflexivity. Qed.

(** If the queue suspends a job (USUSP) is_alive says False, and start submits a second one; both then
    run in the same directory. *)
Definition ex_held : list (@BCall Z Z) :=
  ex_one ++ [BWait [Move 10 (Held (text "USUSP"))]; BStart 0 [] true; BWait [Move 10 Running; Move 11 Running]].
Theorem C85_held_refuted :
  ~ (forall n (l : list (@BCall Z Z)) j j', (0 <= n)%Z -> proper l -> In j (q_jobs (lsf n l)) -> In j' (q_jobs (lsf n l)) ->
       j_owner j = j_owner j' -> unfinished j -> unfinished j' -> j = j').
Proof.
  intros X. specialize (X 7%Z ex_held (mkJob 10 0 Running) (mkJob 11 0 Running)).
  assert (E : q_jobs (lsf 7 ex_held) = [mkJob 10 0 Running; mkJob 11 0 Running]) by (vm_compute; reflexivity).
  rewrite E in X.
  assert (Y : mkJob 10 0 Running = mkJob 11 0 Running); [|discriminate Y].
  apply X; try lia; cbn [In]; auto.
  - unfold proper, ex_held, ex_one. repeat constructor; try discriminate. vm_compute. intuition discriminate.
  - intros c. split; discriminate.
  - intros c. split; discriminate.
Qed.

(** A suspended job counts as ended with exit code 0: get_return_value gives what is there, and the job may change it. *)
Theorem C85_value_held_refuted :
  ~ (forall n (l : list (@BCall Z Z)) i v w', (0 <= n)%Z -> proper l -> b_get lsf_bjobs (lsf n l) i [] [] = (w', inr v) ->
       forall es, exists p, nth_error (q_procs (q_events w' es)) i = Some p /\ b_out p = Some (Whole v)).
Proof.
  intros X. pose (l := ex_one ++ [BWait [Output 10 (Whole 1%Z); Move 10 (Held (text "USUSP"))]]).
  specialize (X 7%Z l 0%nat 1%Z (fst (b_get lsf_bjobs (lsf 7 l) 0 [] []))). 
  destruct X with (es := [@Move Z 10 Running; Output 10 (Whole 2%Z)]) as (p & N & O).
  - lia.
  - unfold proper, l, ex_one. repeat constructor; try discriminate. vm_compute. intuition discriminate.
  - vm_compute. reflexivity.
  - vm_compute in N. injection N as <-. discriminate O.
Qed.

(** The output of an earlier job is returned for a job that has failed. *)
Definition ex_stale : list (@BCall Z Z) := ex_done ++ [BSetHits 0 [3]%Z; BStart 0 [] true; BWait [Move 11 Running; Move 11 (Ended 1)]].
Theorem C85_stale_refuted :
  ~ (forall n (l : list (@BCall Z Z)) i v w' p, (0 <= n)%Z -> unheld l -> b_get lsf_bjobs (lsf n l) i [] [] = (w', inr v) ->
       nth_error (q_procs w') i = Some p ->
       exists id, b_pid p = Some id /\ In (Output id (Whole v)) (concat (map call_events l))).
Proof.
  intros X. pose (w' := fst (b_get lsf_bjobs (lsf 7 ex_stale) 0 [] [])).
  destruct (nth_error (q_procs w') 0) as [p|] eqn:N; [|vm_compute in N; discriminate N].
  destruct (X 7%Z ex_stale 0%nat 5%Z w' p) as (id & P & I); auto.
  - lia.
  - unfold unheld, ex_stale, ex_done, ex_one. repeat constructor.
  - vm_compute in N. injection N as <-. injection P as <-. cbn in I. intuition discriminate.
Qed.

(** If bsub prints its number in another way the job is in the queue but the process does not know it, and can not kill it. *)
Theorem C85_lost_refuted :
  exists bsub_text : Z -> Text, (forall id, (0 <= id)%Z -> exists pre num, bsub_text id = pre ++ num /\ numeral num id) /\
  let w := b_calls (H := Z) (V := Z) bsub_text lsf_bjobs repaired 7 [BNew true; BSetHits 0 [1; 2]%Z] in
  let (w', r) := b_start bsub_text lsf_bjobs w 0 [] true in
  r = inl BValue /\ q_jobs w' = [mkJob 7 0 Pending] /\ snd (b_kill w' 0) = inl BRuntime /\
  snd (b_start bsub_text lsf_bjobs w' 0 [] true) = inl BValue.
Proof.
  exists (fun id => text "Submitted job " ++ dec id). split.
  - intros id P. exists (text "Submitted job "), (dec id). split; [reflexivity|apply dec_numeral, P].
  - vm_compute. auto.
Qed.

(** A line broken inside "Status <" (bjobs breaks lines): is_alive raises for a running job, and so does all that uses
    it. *)
Theorem C85_wrapped_refuted :
  exists bjobs_text : Z -> JState -> Text,
    (forall id s, exists pre post, bjobs_text id s = pre ++ text "Status" ++ [10; 32]%Z ++ text "<" ++ word_of s ++ text ">" ++ post) /\
    snd (b_alive bjobs_text (b_calls (H := Z) (V := Z) lsf_bsub bjobs_text repaired 7 ex_one) 0) = inl BValue.
Proof.
  exists (fun id s => text "Job <" ++ dec id ++ text ">, Status" ++ [10; 32]%Z ++ text "<" ++ word_of s ++ text ">, Queue <lotus>").
  split; [|vm_compute; reflexivity].
  intros id s. exists (text "Job <" ++ dec id ++ text ">, "), (text ", Queue <lotus>").
  rewrite <- !app_assoc. reflexivity.
Qed.

Print Assumptions C85_status_text.
Print Assumptions C85_status.
Print Assumptions C85_submit.
Print Assumptions C85_one_job.
Print Assumptions C85_kill.
Print Assumptions C85_value.
Print Assumptions C85_join.
Print Assumptions C85_join_returns.
Print Assumptions C85_forgotten.
Print Assumptions C85_hits.
Print Assumptions C85_errors.
Print Assumptions C85_python3.
Print Assumptions C85_held_refuted.
Print Assumptions C85_value_held_refuted.
Print Assumptions C85_stale_refuted.
Print Assumptions C85_lost_refuted.
Print Assumptions C85_wrapped_refuted.
