(** Lemmas for the claims on batch queues. *)
From Coq Require Import ZArith String List Bool Lia.
From Verif Require Import SubstModel SubstProofs TrackModel TrackProofs BatchModel BatchSpec.
Import ListNotations.
Open Scope list_scope.

(** * Texts *)
Lemma stands_0 k s : stands k s 0 <-> starts_with k s = true.
Proof.
  rewrite starts_iff. split.
  - intros (pre & post & -> & L). destruct pre; [|discriminate]. exists post. reflexivity.
  - intros (r & ->). exists [], r. auto.
Qed.
Lemma stands_S k c s m : stands k (c :: s) (S m) <-> stands k s m.
Proof.
  split.
  - intros (pre & post & E & L). destruct pre as [|d pre]; [discriminate|].
    injection E as -> ->. injection L as L. exists pre, post. auto.
  - intros (pre & post & -> & L). exists (c :: pre), post. simpl. auto.
Qed.
Lemma stands_nil k m : stands k [] m -> m = 0%nat.
Proof.
  intros (pre & post & E & <-). destruct pre; [reflexivity|discriminate].
Qed.
Lemma text_at k : forall s n, find_text k s = Some n <-> first_stands k s n.
Proof.
  induction s as [|c s IH]; intros n; cbn [find_text].
  - destruct (starts_with k []) eqn:B.
    + split.
      * intros [= <-]. split; [apply stands_0; exact B | intros; lia].
      * intros (A & _). apply stands_nil in A. subst n. reflexivity.
    + split; [discriminate|]. intros (A & _). pose proof (stands_nil _ _ A). subst n.
      apply stands_0 in A. congruence.
  - destruct (starts_with k (c :: s)) eqn:B.
    + split.
      * intros [= <-]. split; [apply stands_0; exact B | intros; lia].
      * intros (_ & M). apply stands_0 in B. specialize (M 0%nat B). assert (n = 0)%nat as -> by lia. reflexivity.
    + assert (N0 : ~ stands k (c :: s) 0) by (rewrite stands_0; congruence).
      split.
      * intros E. case_eq (find_text k s); [intros m F|intros F]; rewrite F in E; [|discriminate]. injection E as <-.
        apply IH in F. destruct F as (A & M). split; [apply stands_S; exact A|].
        intros [|m'] Q; [contradiction|]. apply (proj1 (stands_S k c s m')) in Q. specialize (M _ Q). lia.
      * intros (A & M). destruct n as [|n]; [contradiction|].
        assert (F : find_text k s = Some n).
        { apply IH. split; [exact (proj1 (stands_S k c s n) A)|]. intros m Q. apply (proj2 (stands_S k c s m)) in Q.
          specialize (M _ Q). lia. }
        rewrite F. reflexivity.
Qed.
Lemma text_no k s : find_text k s = None <-> forall n, ~ stands k s n.
Proof.
  split.
  - revert k. induction s as [|c s IH]; intros k E n A; cbn [find_text] in E.
    + pose proof (stands_nil _ _ A). subst n. apply stands_0 in A. rewrite A in E. discriminate.
    + destruct (starts_with k (c :: s)) eqn:B; [discriminate|].
      destruct (find_text k s) eqn:F; [discriminate|].
      destruct n as [|n].
      * apply stands_0 in A. congruence.
      * exact (IH _ F _ (proj1 (stands_S k c s n) A)).
  - intros N. destruct (find_text k s) as [n|] eqn:F; [|reflexivity].
    apply text_at in F. destruct F as (A & _). destruct (N _ A).
Qed.
Lemma first_unique k s n m : first_stands k s n -> first_stands k s m -> n = m.
Proof. intros (A & B) (C & D). specialize (B _ C). specialize (D _ A). lia. Qed.

Lemma skip_pre {A} (pre a r : list A) : skipn (List.length pre + List.length a) (pre ++ a ++ r) = r.
Proof.
  rewrite app_assoc, <- app_length, skipn_app, skipn_all, PeanoNat.Nat.sub_diag. reflexivity.
Qed.
Lemma first_pre {A} (r q : list A) : firstn (List.length r) (r ++ q) = r.
Proof. rewrite firstn_app, firstn_all, PeanoNat.Nat.sub_diag. apply app_nil_r. Qed.

Lemma substr_some s a b r : get_substr s a b = Some r <-> between s a b r.
Proof.
  unfold get_substr. split.
  - destruct (find_text a s) as [i|] eqn:FA; [|discriminate]. apply text_at in FA.
    destruct FA as ((pre & q & E & L) & MA). subst i.
    rewrite E, skip_pre. destruct (find_text b q) as [j|] eqn:FB; [|discriminate]. apply text_at in FB.
    destruct FB as ((r' & post & E' & L') & MB). subst j. intros [= <-].
    rewrite E', first_pre. exists pre, post. rewrite <- E'. split; [reflexivity|]. split.
    + split; [exists pre, q; auto|]. rewrite <- E. exact MA.
    + split; [exists r', post; auto|]. exact MB.
  - intros (pre & post & E & FA & FB). apply text_at in FA, FB. rewrite FA, E, skip_pre, FB, first_pre. reflexivity.
Qed.
Lemma substr_none s a b : get_substr s a b = None <-> forall r, ~ between s a b r.
Proof.
  split.
  - intros E r B. apply substr_some in B. congruence.
  - intros N. destruct (get_substr s a b) as [r|] eqn:E; [|reflexivity]. apply substr_some in E. destruct (N _ E).
Qed.
Lemma between_unique s a b r r' : between s a b r -> between s a b r' -> r = r'.
Proof. intros A B. apply substr_some in A, B. congruence. Qed.

Lemma same_iff a : forall b, same a b = true <-> a = b.
Proof.
  induction a as [|x a IH]; intros [|y b]; cbn [same]; split; try congruence.
  - rewrite andb_true_iff, Z.eqb_eq, IH. intros (-> & ->). reflexivity.
  - intros [= -> ->]. rewrite andb_true_iff, Z.eqb_eq, IH. auto.
Qed.
Lemma alive_word_iff w : existsb (same w) alive_words = true <-> w = text "PEND" \/ w = text "RUN" \/ w = text "WAIT".
Proof.
  rewrite existsb_exists. split.
  - intros (x & I & E). apply same_iff in E. subst x. cbn [alive_words In] in I.
    destruct I as [E|[E|[E|[]]]]; auto.
  - intros [E|[E|E]]; (eexists; split; [|apply same_iff; exact E]); cbn [alive_words In]; auto.
Qed.

(** A single character. *)
Lemma stands_char c s n : stands [c] s n <-> nth_error s n = Some c.
Proof.
  split.
  - intros (pre & post & -> & <-). rewrite nth_error_app2 by lia. rewrite PeanoNat.Nat.sub_diag. reflexivity.
  - intros E. apply nth_error_split in E. destruct E as (pre & post & -> & L). exists pre, post. auto.
Qed.
Lemma first_char c pre post : ~ In c pre -> first_stands [c] (pre ++ [c] ++ post) (List.length pre).
Proof.
  intros N. split; [exists pre, post; auto|]. intros m A. apply stands_char in A.
  destruct (Compare_dec.le_lt_dec (List.length pre) m) as [L|L]; [exact L|].
  rewrite nth_error_app1 in A by exact L. apply nth_error_In in A. contradiction.
Qed.

(** * Numbers *)
Lemma digits_numeral t : forall acc, Forall (fun c => (48 <= c <= 57)%Z) t ->
  digits acc t = Some (fold_left (fun a c => (10 * a + (c - 48))%Z) t acc).
Proof.
  induction t as [|c t IH]; intros acc F; [reflexivity|].
  inversion F as [|? ? C F']; subst. cbn [digits fold_left].
  assert (D : is_digit c = true) by (unfold is_digit; rewrite andb_true_iff, !Z.leb_le; lia).
  rewrite D. apply IH, F'.
Qed.
Lemma digit_no_space c : (48 <= c <= 57)%Z -> is_space c = false.
Proof.
  intros C. unfold is_space. apply orb_false_iff. split; apply andb_false_iff; rewrite !Z.leb_gt; lia.
Qed.
Lemma lstrip_digits t : Forall (fun c => (48 <= c <= 57)%Z) t -> lstrip t = t.
Proof. intros [|c r C F]; [reflexivity|]. cbn [lstrip]. rewrite digit_no_space by exact C. reflexivity. Qed.
Lemma int_numeral t n : numeral t n -> py_int t = Some n.
Proof.
  intros (N & F & V). unfold py_int, strip.
  rewrite (lstrip_digits t F). rewrite lstrip_digits by (apply Forall_rev; exact F). rewrite rev_involutive.
  destruct t as [|c r]; [congruence|]. inversion F as [|? ? C F']; subst.
  replace (c =? 43)%Z with false by (symmetry; apply Z.eqb_neq; lia).
  replace (c =? 45)%Z with false by (symmetry; apply Z.eqb_neq; lia).
  unfold natural. replace (is_digit c) with true by (symmetry; unfold is_digit; rewrite andb_true_iff, !Z.leb_le; lia).
  rewrite digits_numeral by exact F'. cbn [fold_left]. f_equal.
Qed.
Lemma clear_number f id : clear_bsub f -> (0 <= id)%Z -> job_number (f id) = Some id.
Proof.
  intros C I. destruct (C id I) as (pre & num & post & E & N & A & B). rewrite E. unfold job_number.
  assert (FA : find_text (text "<") (pre ++ text "<" ++ num ++ text ">" ++ post) = Some (List.length pre)).
  { apply text_at. exact (first_char 60%Z pre _ A). }
  assert (FB : find_text (text ">") (pre ++ text "<" ++ num ++ text ">" ++ post)
               = Some (List.length (pre ++ text "<" ++ num))).
  { apply text_at. replace (pre ++ text "<" ++ num ++ text ">" ++ post) with ((pre ++ text "<" ++ num) ++ text ">" ++ post)
      by (rewrite !app_assoc; reflexivity).
    refine (first_char 62%Z _ _ _). rewrite !in_app_iff. intros [X|[X|X]]; [contradiction| |].
    - destruct X as [X|[]]. discriminate X.
    - destruct N as (_ & F & _). rewrite Forall_forall in F. specialize (F _ X). lia. }
  rewrite FA, FB. replace (pre ++ text "<" ++ num ++ text ">" ++ post) with ((pre ++ text "<" ++ num) ++ text ">" ++ post)
    by (rewrite !app_assoc; reflexivity).
  rewrite first_pre. replace (S (List.length pre)) with (List.length pre + List.length (text "<"))%nat
    by (cbn; lia).
  rewrite skip_pre. apply int_numeral, N.
Qed.

(** * States *)
Lemma clear_word f id s : clear_bjobs f -> s <> Gone -> (forall w, s = Held w -> held_word w) ->
  exists e, read_status (f id s) =
    Some (match s with Pending | Running | Waiting => (true, None) | _ => (false, Some e) end).
Proof.
  intros C G Hw. destruct (C id s G Hw) as (B & _). apply substr_some in B. unfold read_status. rewrite B.
  destruct (existsb (same (word_of s)) alive_words) eqn:A.
  - apply alive_word_iff in A. exists Zero.
    destruct s as [| | |w|c|]; try reflexivity.
    + destruct (Hw w eq_refl) as (_ & X & Y & Z0). cbn [word_of] in A. tauto.
    + cbn [word_of] in A. destruct (c =? 0)%Z; destruct A as [A|[A|A]]; discriminate A.
    + congruence.
  - destruct s as [| | |w|c|]; try (exfalso; revert A; vm_compute; discriminate); eexists; reflexivity.
Qed.

Section Proofs.
Context {H V : Type}.
Notation World := (@World H V).
Notation QEvent := (@QEvent V).
Notation BProc := (@BProc H V).
Notation BCall := (@BCall H V).

(** * What happens besides submitting *)
Inductive drift (E : QEvent -> Prop) : World -> World -> Prop :=
| drift_refl w : drift E w w
| drift_event w e w' : E e -> drift E (q_event w e) w' -> drift E w w'
| drift_exit w i (p : BProc) x w' : nth_error (q_procs w) i = Some p -> b_pid p <> None ->
    drift E (set_p w i (mkBProc (b_pid p) (Some x) (b_hits p) (b_jar p) (b_out p))) w' -> drift E w w'.

Lemma drift_trans E w1 w2 w3 : drift E w1 w2 -> drift E w2 w3 -> drift E w1 w3.
Proof.
  induction 1 as [|w e w' X D IH|w i p x w' N P D IH]; intros T; [exact T| |].
  - eapply drift_event; eauto.
  - eapply drift_exit; eauto.
Qed.
Lemma drift_keeps (E : QEvent -> Prop) (I : World -> Prop) :
  (forall w e, E e -> I w -> I (q_event w e)) ->
  (forall w i (p : BProc) x, nth_error (q_procs w) i = Some p -> b_pid p <> None -> I w ->
     I (set_p w i (mkBProc (b_pid p) (Some x) (b_hits p) (b_jar p) (b_out p)))) ->
  forall w w', drift E w w' -> I w -> I w'.
Proof. intros A B. induction 1; intros; eauto. Qed.

Lemma events_drift (E : QEvent -> Prop) es : forall w, Forall E es -> drift E w (q_events w es).
Proof.
  induction es as [|e es IH]; intros w F; [apply drift_refl|].
  inversion F; subst. cbn. eapply drift_event; eauto.
Qed.

Variable bsub_text : Z -> Text.
Variable bjobs_text : Z -> JState -> Text.
Variable dl : Dialect.
Notation b_alive := (@b_alive H V bjobs_text).
Notation b_start := (@b_start H V bsub_text bjobs_text).
Notation b_get := (@b_get H V bjobs_text).
Notation b_join := (@b_join H V bjobs_text).
Notation b_call := (@b_call H V bsub_text bjobs_text dl).

Lemma alive_drift E w i : drift E w (fst (b_alive w i)).
Proof.
  unfold BatchModel.b_alive. destruct (nth_error (q_procs w) i) as [p|] eqn:N; [|apply drift_refl].
  destruct (b_pid p) as [id|] eqn:P; [|apply drift_refl].
  destruct (bjobs bjobs_text w id) as [t|]; [|apply drift_refl].
  unfold read_status. destruct (get_substr t (text "Status <") (text ">")) as [s|]; [|apply drift_refl].
  destruct (existsb (same s) alive_words); [apply drift_refl|].
  eapply drift_exit; [exact N|congruence|]. rewrite P. apply drift_refl.
Qed.
Lemma join_drift (E : QEvent -> Prop) r : forall l w i, Forall E (concat r) -> drift E w (fst (b_join r l w i)).
Proof.
  induction r as [|es r IH]; intros l w i F; cbn [BatchModel.b_join].
  - pose proof (alive_drift E w i) as D. destruct (b_alive w i) as [w1 [e|a]]; [exact D|].
    destruct (a && _)%bool; exact D.
  - pose proof (alive_drift E w i) as D. destruct (b_alive w i) as [w1 [e|a]]; [exact D|].
    cbn [concat] in F. apply Forall_app in F. destruct F as (F1 & F2).
    destruct (a && _)%bool; [|exact D].
    eapply drift_trans; [exact D|]. eapply drift_trans; [apply events_drift; exact F1|]. apply IH, F2.
Qed.
Lemma get_drift (E : QEvent -> Prop) w i e1 e2 : Forall E e1 -> Forall E e2 -> drift E w (fst (b_get w i e1 e2)).
Proof.
  intros F1 F2. unfold BatchModel.b_get.
  pose proof (alive_drift E w i) as D. destruct (b_alive w i) as [w1 [e|[|]]]; [exact D|exact D|].
  destruct (nth_error (q_procs w1) i) as [p|]; [|exact D].
  destruct (b_exit p); [|exact D].
  assert (D2 : drift E w (q_events w1 e1)) by (eapply drift_trans; [exact D|apply events_drift; exact F1]).
  destruct (nth_error (q_procs (q_events w1 e1)) i) as [p2|]; [|exact D2].
  destruct (b_out p2); [|exact D2].
  assert (D3 : drift E w (q_events (q_events w1 e1) e2)) by (eapply drift_trans; [exact D2|apply events_drift; exact F2]).
  destruct (nth_error (q_procs (q_events (q_events w1 e1) e2)) i) as [p3|]; [|exact D3].
  destruct (b_out p3) as [[v|]|]; exact D3.
Qed.

(** * Events keep the jobs and the processes, up to the states and the outputs *)
Lemma event_jobs (w : World) e j' : In j' (q_jobs (q_event w e)) ->
  exists j, In j (q_jobs w) /\ j_id j' = j_id j /\ j_owner j' = j_owner j /\
    (over (j_state j) = true -> over (j_state j') = true) /\
    (j_state j' = j_state j \/ (exists id, e = Move id (j_state j')) \/ j_state j' = Gone).
Proof.
  destruct e as [id s|id f|n]; cbn [q_event].
  - cbn [q_jobs]. intros I. apply in_map_iff in I. destruct I as (j & <- & I). exists j.
    split; [exact I|]. destruct (j_id j =? id)%Z; [|auto 6].
    unfold move. destruct (j_state j) as [| | |u|c|] eqn:S0; destruct s; cbn [j_id j_owner j_state over];
      rewrite ?S0; repeat split; auto; try discriminate; eauto.
  - intros I. exists j'. assert (I' : In j' (q_jobs w)).
    { destruct (job_of w id) as [j|]; [|exact I].
      destruct (j_state j); destruct (nth_error (q_procs w) (j_owner j)); exact I. }
    auto 6.
  - intros I. exists j'. auto 6.
Qed.
Lemma event_jobs_fwd (w : World) e j : In j (q_jobs w) ->
  exists j', In j' (q_jobs (q_event w e)) /\ j_id j' = j_id j /\ j_owner j' = j_owner j.
Proof.
  destruct e as [id s|id f|n]; cbn [q_event]; intros I.
  - cbn [q_jobs]. eexists. split; [apply in_map; exact I|]. cbv beta.
    destruct (j_id j =? id)%Z; [|auto]. unfold move.
    destruct (j_state j); destruct s; cbn [j_id j_owner]; auto.
  - exists j. split; [|auto]. destruct (job_of w id) as [k|]; [|exact I].
    destruct (j_state k); destruct (nth_error (q_procs w) (j_owner k)); exact I.
  - exists j. auto.
Qed.
Lemma event_ids (w : World) e : map j_id (q_jobs (q_event w e)) = map j_id (q_jobs w).
Proof.
  destruct e as [id s|id f|n]; cbn [q_event].
  - cbn [q_jobs]. rewrite map_map. apply map_ext. intros j. destruct (j_id j =? id)%Z; [|reflexivity].
    unfold move. destruct (j_state j); destruct s; reflexivity.
  - destruct (job_of w id) as [k|]; [|reflexivity].
    destruct (j_state k); destruct (nth_error (q_procs w) (j_owner k)); reflexivity.
  - reflexivity.
Qed.
Lemma event_procs (w : World) e i : 
  nth_error (q_procs (q_event w e)) i = nth_error (q_procs w) i \/
  exists id j p f, e = Output id f /\ In j (q_jobs w) /\ j_id j = id /\ j_owner j = i /\ j_state j = Running /\
    nth_error (q_procs w) i = Some p /\
    nth_error (q_procs (q_event w e)) i = Some (mkBProc (b_pid p) (b_exit p) (b_hits p) (b_jar p) (Some f)).
Proof.
  destruct e as [id s|id f|n]; cbn [q_event]; [left; reflexivity| |left; reflexivity].
  destruct (job_of w id) as [j|] eqn:J; [|left; reflexivity].
  destruct (j_state j) eqn:S0; try (left; reflexivity).
  destruct (nth_error (q_procs w) (j_owner j)) as [p|] eqn:N; [|left; reflexivity].
  unfold job_of in J. apply List.find_some in J. destruct J as (I & X). apply Z.eqb_eq in X.
  cbn [set_p q_procs].
  destruct (PeanoNat.Nat.eq_dec (j_owner j) i) as [<-|D].
  - right. exists id, j, p, f. repeat split; auto. apply set_at_same. eapply some_lt; eauto.
  - left. apply set_at_other. exact D.
Qed.
Lemma event_length (w : World) e : List.length (q_procs (q_event w e)) = List.length (q_procs w).
Proof.
  destruct e as [id s|id f|n]; cbn [q_event]; try reflexivity.
  destruct (job_of w id) as [j|]; [|reflexivity].
  destruct (j_state j); destruct (nth_error (q_procs w) (j_owner j)); try reflexivity.
  apply set_at_length.
Qed.
Lemma event_pid (w : World) e i p' : nth_error (q_procs (q_event w e)) i = Some p' ->
  exists p, nth_error (q_procs w) i = Some p /\ b_pid p' = b_pid p /\ b_exit p' = b_exit p.
Proof.
  intros N. destruct (event_procs w e i) as [E|(id & j & p & f & -> & _ & _ & _ & _ & P & Q)].
  - rewrite E in N. eauto.
  - rewrite Q in N. injection N as <-. eauto.
Qed.
Lemma event_next (w : World) e : (q_next w <= q_next (q_event w e))%Z.
Proof.
  destruct e as [id s|id f|n]; cbn [q_event]; [cbn; lia| |cbn [q_next]; lia].
  destruct (job_of w id) as [j|]; [|lia].
  destruct (j_state j); destruct (nth_error (q_procs w) (j_owner j)); cbn [set_p q_next]; lia.
Qed.
Lemma event_asked (w : World) e : q_asked (q_event w e) = q_asked w.
Proof.
  destruct e as [id s|id f|n]; cbn [q_event]; try reflexivity.
  destruct (job_of w id) as [j|]; [|reflexivity].
  destruct (j_state j); destruct (nth_error (q_procs w) (j_owner j)); reflexivity.
Qed.

(** * The invariant of all histories *)
Record Inv (w : World) : Prop := mkInv {
  i_dup : NoDup (map j_id (q_jobs w));
  i_low : forall j, In j (q_jobs w) -> (0 <= j_id j < q_next w)%Z;
  i_next : (0 <= q_next w)%Z;
  i_own : forall j, In j (q_jobs w) -> (j_owner j < List.length (q_procs w))%nat;
  i_pid : forall i (p : BProc) id, nth_error (q_procs w) i = Some p -> b_pid p = Some id ->
    exists j, In j (q_jobs w) /\ j_id j = id /\ j_owner j = i;
  i_exit : forall i (p : BProc), nth_error (q_procs w) i = Some p -> b_exit p <> None -> b_pid p <> None;
  i_asked : forall id, In id (q_asked w) -> In id (map j_id (q_jobs w)) }.

Lemma inv_event (w : World) e : Inv w -> Inv (q_event w e).
Proof.
  intros [D L N O P X A]. constructor.
  - rewrite event_ids. exact D.
  - intros j' I. apply event_jobs in I. destruct I as (j & I & -> & _). pose proof (L _ I). pose proof (event_next w e). lia.
  - pose proof (event_next w e). lia.
  - intros j' I. apply event_jobs in I. destruct I as (j & I & _ & -> & _). rewrite event_length. exact (O _ I).
  - intros i p' id E Q. apply event_pid in E. destruct E as (p & E & EQ & _). rewrite EQ in Q.
    destruct (P _ _ _ E Q) as (j & I & <- & <-). destruct (event_jobs_fwd w e j I) as (j' & I' & A1 & A2). eauto.
  - intros i p' E Q. apply event_pid in E. destruct E as (p & E & -> & R). rewrite R in Q. eauto.
  - intros id I. rewrite event_asked in I. rewrite event_ids. auto.
Qed.
Lemma inv_exit (w : World) i (p : BProc) x : nth_error (q_procs w) i = Some p -> b_pid p <> None -> Inv w ->
  Inv (set_p w i (mkBProc (b_pid p) (Some x) (b_hits p) (b_jar p) (b_out p))).
Proof.
  intros E Q [D L N O P X A]. constructor; cbn [set_p q_procs q_jobs q_next q_asked]; auto.
  - intros j I. rewrite set_at_length. auto.
  - intros k q id G R. apply set_at_get in G. destruct G as [(-> & -> & _)|(_ & G)]; eauto.
  - intros k q G R. apply set_at_get in G. destruct G as [(-> & -> & _)|(_ & G)]; eauto.
Qed.
Lemma inv_drift E w w' : drift E w w' -> Inv w -> Inv w'.
Proof. apply drift_keeps; intros; [apply inv_event|apply inv_exit]; auto. Qed.

(** * Submitting *)
Definition submitted (w : World) (i : nat) (p : BProc) : World :=
  set_p (mkWorld (q_procs w) (q_jobs w ++ [mkJob (q_next w) i Pending]) (q_next w + 1) (q_asked w)) i
    (mkBProc (Some (q_next w)) (b_exit p) (b_hits p) (b_jar p) (b_out p)).

Lemma inv_submit (w : World) i p : nth_error (q_procs w) i = Some p -> Inv w -> Inv (submitted w i p).
Proof.
  intros E [D L N O P X A]. constructor; cbn [submitted set_p q_procs q_jobs q_next q_asked].
  - rewrite map_app. cbn [map j_id]. apply NoDup_rev in D. rewrite <- (rev_involutive (_ ++ _)). apply NoDup_rev.
    rewrite rev_app_distr. cbn. constructor; [|exact D]. rewrite <- in_rev. intros I. apply in_map_iff in I.
    destruct I as (j & Ej & I). pose proof (L _ I). lia.
  - intros j I. apply in_app_iff in I. destruct I as [I|[<-|[]]]; [pose proof (L _ I)|cbn]; lia.
  - lia.
  - intros j I. rewrite set_at_length. apply in_app_iff in I. destruct I as [I|[<-|[]]]; [exact (O _ I)|].
    cbn. eapply some_lt; eauto.
  - intros k q id G R. apply set_at_get in G. destruct G as [(-> & -> & _)|(_ & G)].
    + cbn in R. injection R as <-. eexists. split; [apply in_or_app; right; left; reflexivity|]. auto.
    + destruct (P _ _ _ G R) as (j & I & ? & ?). exists j. split; [apply in_or_app; auto|auto].
  - intros k q G R. apply set_at_get in G. destruct G as [(-> & -> & _)|(_ & G)]; [discriminate|eauto].
  - intros id I. rewrite map_app. apply in_or_app. left. auto.
Qed.

Lemma start_cases (E : QEvent -> Prop) w i es ok : clear_bsub bsub_text -> Inv w -> Forall E es ->
  (drift E w (fst (b_start w i es ok)) /\ exists e, snd (b_start w i es ok) = inl e) \/
  (exists w1 p, b_alive w i = (w1, inr false) /\ nth_error (q_procs (q_events w1 es)) i = Some p /\
    b_start w i es ok = (submitted (q_events w1 es) i p, inr tt)).
Proof.
  intros C I F. unfold BatchModel.b_start.
  pose proof (alive_drift E w i) as D. destruct (b_alive w i) as [w1 [e|[|]]] eqn:AL; cbn [fst] in D.
  - left. split; [exact D|eexists; reflexivity].
  - left. split; [exact D|eexists; reflexivity].
  - assert (D2 : drift E w (q_events w1 es)) by (eapply drift_trans; [exact D|apply events_drift; exact F]).
    destruct ok; [|left; split; [exact D2|eexists; reflexivity]].
    pose proof (inv_drift _ _ _ D2 I) as I2.
    rewrite clear_number by (try exact C; apply I2).
    cbn [q_procs].
    destruct (nth_error (q_procs (q_events w1 es)) i) as [p|] eqn:N; [right; exists w1, p; auto|].
    exfalso. assert (LT : List.length (q_procs (q_events w1 es)) = List.length (q_procs w)).
    { revert D2. generalize (q_events w1 es). clear -dl. intros w'. 
      induction 1 as [|w e w' X D IH|w j p x w' Nj P D IH]; [reflexivity| |].
      - rewrite IH. apply event_length.
      - rewrite IH. cbn [set_p q_procs]. apply set_at_length. }
    unfold BatchModel.b_alive in AL. destruct (nth_error (q_procs w) i) as [p|] eqn:N'; [|discriminate].
    apply some_lt in N'. apply nth_error_None in N. lia.
Qed.

Lemma inv_call (w : World) c : clear_bsub bsub_text -> Inv w -> Inv (b_call w c).
Proof.
  intros C I. destruct c as [f|i h|i es ok|i|i|i r l|i e1 e2|es]; cbn [BatchModel.b_call].
  - unfold b_new. destruct f; [|exact I]. destruct (text_pickle dl); [|exact I].
    destruct I as [D L N O P X A]. constructor; cbn [fst q_procs q_jobs q_next q_asked]; auto.
    + intros j J. rewrite app_length. pose proof (O _ J). lia.
    + intros i p id G R. destruct (Compare_dec.lt_dec i (List.length (q_procs w))) as [l|l].
      * rewrite nth_error_app1 in G by exact l. eauto.
      * rewrite nth_error_app2 in G by lia. destruct (i - List.length (q_procs w))%nat as [|[|]]; cbn in G; try discriminate.
        injection G as <-. discriminate.
    + intros i p G R. destruct (Compare_dec.lt_dec i (List.length (q_procs w))) as [l|l].
      * rewrite nth_error_app1 in G by exact l. eauto.
      * rewrite nth_error_app2 in G by lia. destruct (i - List.length (q_procs w))%nat as [|[|]]; cbn in G; try discriminate.
        injection G as <-. destruct R. reflexivity.
  - unfold b_set_hits. destruct (nth_error (q_procs w) i) as [p|] eqn:E; [|exact I].
    destruct I as [D L N O P X A]. constructor; cbn [fst set_p q_procs q_jobs q_next q_asked]; auto.
    + intros j J. rewrite set_at_length. auto.
    + intros k q id G R. apply set_at_get in G. destruct G as [(-> & -> & _)|(_ & G)]; eauto.
    + intros k q G R. apply set_at_get in G. destruct G as [(-> & -> & _)|(_ & G)]; [|eauto]. exact (X _ _ E R).
  - destruct (start_cases (fun _ => True) w i es ok C I) as [(D & _)|(w1 & p & A & N & E)];
      [apply Forall_forall; auto|exact (inv_drift _ _ _ D I)|].
    rewrite E. apply inv_submit; [exact N|].
    eapply inv_drift; [|exact I]. eapply drift_trans; [|apply (events_drift (fun _ => True)); apply Forall_forall; auto].
    pose proof (alive_drift (fun _ => True) w i) as D. rewrite A in D. exact D.
  - eapply inv_drift; [apply (alive_drift (fun _ => True))|exact I].
  - unfold b_kill. destruct (nth_error (q_procs w) i) as [p|] eqn:E; [|exact I].
    destruct (b_pid p) as [id|] eqn:Q; [|exact I].
    destruct I as [D L N O P X A]. constructor; cbn [fst q_procs q_jobs q_next q_asked]; auto.
    intros k J. apply in_app_iff in J. destruct J as [J|[<-|[]]]; [auto|].
    destruct (P _ _ _ E Q) as (j & J & <- & _). apply in_map. exact J.
  - eapply inv_drift; [apply (join_drift (fun _ => True)); apply Forall_forall; auto|exact I].
  - eapply inv_drift; [apply (get_drift (fun _ => True)); apply Forall_forall; auto|exact I].
  - eapply inv_drift; [apply (events_drift (fun _ => True)); apply Forall_forall; auto|exact I].
Qed.
Lemma inv_calls n l : clear_bsub bsub_text -> (0 <= n)%Z -> Inv (b_calls bsub_text bjobs_text dl n l).
Proof.
  intros C N. unfold b_calls.
  assert (I0 : Inv (@w_init H V n)).
  { constructor; cbn; try constructor; try tauto; try lia; intros i; destruct i; discriminate. }
  revert I0. generalize (@w_init H V n). induction l as [|c l IH]; intros w I; [exact I|]. cbn. apply IH, inv_call; auto.
Qed.

Lemma job_unique (w : World) j j' : Inv w -> In j (q_jobs w) -> In j' (q_jobs w) -> j_id j = j_id j' -> j = j'.
Proof.
  intros I. pose proof (i_dup _ I) as D. revert D. generalize (q_jobs w). clear. intros l.
  induction l as [|x l IH]; intros D A B E; [destruct A|]. cbn in D. inversion D as [|? ? N D']; subst.
  destruct A as [<-|A], B as [<-|B]; auto.
  - destruct N. rewrite E. apply in_map. exact B.
  - destruct N. rewrite <- E. apply in_map. exact A.
Qed.
Lemma job_of_in (w : World) j : Inv w -> In j (q_jobs w) -> job_of w (j_id j) = Some j.
Proof.
  intros I J. unfold job_of. destruct (find (fun k => (j_id k =? j_id j)%Z) (q_jobs w)) as [k|] eqn:F.
  - apply List.find_some in F. destruct F as (K & E). apply Z.eqb_eq in E. f_equal. eapply job_unique; eauto.
  - pose proof (List.find_none _ _ F _ J) as X. cbn in X. rewrite Z.eqb_refl in X. discriminate.
Qed.

(** * Invariants of calls *)
Definition fresh_proc : BProc := mkBProc None None None (Some (Whole None)) None.

Lemma call_keeps (E : QEvent -> Prop) (I : World -> Prop) :
  (forall w w', drift E w w' -> I w -> I w') ->
  (forall w, Inv w -> I w -> I (mkWorld (q_procs w ++ [fresh_proc]) (q_jobs w) (q_next w) (q_asked w))) ->
  (forall w i (p : BProc) h, nth_error (q_procs w) i = Some p -> I w ->
     I (set_p w i (mkBProc (b_pid p) (b_exit p) (Some h) (Some (Whole (Some h))) (b_out p)))) ->
  (forall w i (p : BProc) id, nth_error (q_procs w) i = Some p -> b_pid p = Some id -> I w ->
     I (mkWorld (q_procs w) (q_jobs w) (q_next w) (q_asked w ++ [id]))) ->
  (forall w i es w1 p, Inv w -> I w -> Forall E es -> b_alive w i = (w1, inr false) ->
     nth_error (q_procs (q_events w1 es)) i = Some p -> I (submitted (q_events w1 es) i p)) ->
  clear_bsub bsub_text -> forall w c, Forall E (call_events c) -> Inv w -> I w -> I (b_call w c).
Proof.
  intros KD KN KH KA KS C w c F Iw IIw.
  destruct c as [f|i h|i es ok|i|i|i r l|i e1 e2|es]; cbn [BatchModel.b_call call_events] in *.
  - unfold b_new. destruct f; [|exact IIw]. destruct (text_pickle dl); [|exact IIw]. apply KN; assumption.
  - unfold b_set_hits. destruct (nth_error (q_procs w) i) as [p|] eqn:N; [|exact IIw]. apply KH; auto.
  - destruct (start_cases E w i es ok C Iw F) as [(D & _)|(w1 & p & A & N & Q)]; [exact (KD _ _ D IIw)|].
    rewrite Q. apply (KS w i es w1 p); auto.
  - eapply KD; [apply alive_drift|exact IIw].
  - unfold b_kill. destruct (nth_error (q_procs w) i) as [p|] eqn:N; [|exact IIw].
    destruct (b_pid p) as [id|] eqn:P; [|exact IIw]. eapply KA; eauto.
  - eapply KD; [apply join_drift; exact F|exact IIw].
  - apply Forall_app in F. destruct F. eapply KD; [apply get_drift; assumption|exact IIw].
  - eapply KD; [apply events_drift; exact F|exact IIw].
Qed.

(** ** Jobs that are not held back *)
Record Free (w : World) : Prop := mkFree {
  f_held : forall j u, In j (q_jobs w) -> j_state j <> Held u;
  f_pid : forall j (p : BProc), In j (q_jobs w) -> over (j_state j) = false ->
    nth_error (q_procs w) (j_owner j) = Some p -> b_pid p = Some (j_id j) }.

Lemma free_drift w w' : drift free_event w w' -> Free w -> Free w'.
Proof.
  apply drift_keeps; clear w w'.
  - intros w e Fe [Hh Hp]. constructor.
    + intros j' u I. apply event_jobs in I. destruct I as (j & I & _ & _ & _ & [E|[(id & E)|E]]).
      * rewrite E. eauto.
      * intros Q. rewrite Q in E. subst e. exact Fe.
      * rewrite E. discriminate.
    + intros j' p' I O N. apply event_jobs in I. destruct I as (j & I & A & B & C & _).
      apply event_pid in N. destruct N as (p & N & Q & _). rewrite Q, A. rewrite B in N. apply Hp; auto.
      destruct (over (j_state j)); [|reflexivity]. rewrite C in O by reflexivity. discriminate.
  - intros w i p x N P [Hh Hp]. constructor; [exact Hh|].
    intros j q I O G. cbn [set_p q_procs q_jobs] in *. apply set_at_get in G. destruct G as [(E & -> & _)|(_ & G)]; [|eauto].
    cbn [b_pid]. apply Hp; auto. rewrite <- E. exact N.
Qed.

(** The answers of is_alive. *)
Lemma alive_jobs w i w1 r : b_alive w i = (w1, r) -> q_jobs w1 = q_jobs w /\ q_asked w1 = q_asked w /\ q_next w1 = q_next w.
Proof.
  unfold BatchModel.b_alive. destruct (nth_error (q_procs w) i) as [p|]; [|intros [= <- _]; auto].
  destruct (b_pid p) as [id|]; [|intros [= <- _]; auto].
  destruct (bjobs bjobs_text w id) as [t|]; [|intros [= <- _]; auto].
  destruct (read_status t) as [[[|] e]|]; intros [= <- _]; auto.
Qed.

Lemma alive_state w i (p : BProc) id : clear_bjobs bjobs_text -> Inv w ->
  (forall j u, In j (q_jobs w) -> j_state j = Held u -> held_word u) ->
  nth_error (q_procs w) i = Some p -> b_pid p = Some id ->
  exists j, In j (q_jobs w) /\ j_id j = id /\ j_owner j = i /\
    match j_state j with
    | Gone => b_alive w i = (w, inl BCalled)
    | Pending | Running | Waiting => b_alive w i = (w, inr true)
    | s => exists x, b_alive w i = (set_p w i (mkBProc (Some id) (Some x) (b_hits p) (b_jar p) (b_out p)), inr false) /\
             read_status (bjobs_text id s) = Some (false, Some x)
    end.
Proof.
  intros C I Hw N P. destruct (i_pid _ I _ _ _ N P) as (j & J & E & O). exists j. repeat split; auto.
  assert (B : bjobs bjobs_text w id = match j_state j with Gone => None | s => Some (bjobs_text id s) end).
  { unfold bjobs. rewrite <- E, (job_of_in _ _ I J). reflexivity. }
  assert (A : b_alive w i = match bjobs bjobs_text w id with
    | None => (w, inl BCalled)
    | Some s => match read_status s with
                | None => (w, inl BValue)
                | Some (true, _) => (w, inr true)
                | Some (false, e) => (set_p w i (mkBProc (b_pid p) e (b_hits p) (b_jar p) (b_out p)), inr false)
                end end).
  { unfold BatchModel.b_alive. rewrite N, P. reflexivity. }
  rewrite A, B, P. clear A B.
  destruct (j_state j) as [| | |u|c|] eqn:S0; try reflexivity.
  - destruct (clear_word bjobs_text id Pending C) as (e & R); [discriminate|discriminate|]. rewrite R. reflexivity.
  - destruct (clear_word bjobs_text id Running C) as (e & R); [discriminate|discriminate|]. rewrite R. reflexivity.
  - destruct (clear_word bjobs_text id Waiting C) as (e & R); [discriminate|discriminate|]. rewrite R. reflexivity.
  - destruct (clear_word bjobs_text id (Held u) C) as (e & R); [discriminate|intros ? [= <-]; eauto|]. rewrite R. eauto.
  - destruct (clear_word bjobs_text id (Ended c) C) as (e & R); [discriminate|discriminate|]. rewrite R. eauto.
Qed.

Lemma free_dead w i w1 : clear_bjobs bjobs_text -> Inv w -> Free w -> b_alive w i = (w1, inr false) ->
  forall j, In j (q_jobs w) -> j_owner j = i -> over (j_state j) = true.
Proof.
  intros C I [Hh Hp] A j J O. destruct (over (j_state j)) eqn:Q; [reflexivity|exfalso].
  pose proof (i_own _ I _ J) as L. rewrite O in L. destruct (nth_error (q_procs w) i) as [p|] eqn:N.
  2:{ apply nth_error_None in N. lia. }
  assert (P : b_pid p = Some (j_id j)) by (apply Hp; auto; rewrite O; exact N).
  destruct (alive_state w i p _ C I (fun k u K U => False_ind _ (Hh _ _ K U)) N P) as (k & K & E & _ & M).
  assert (k = j) as -> by (eapply job_unique; eauto).
  destruct (j_state j) as [| | |u|c|] eqn:S0; try discriminate Q; try (rewrite A in M; discriminate M).
  destruct (Hh _ _ J S0).
Qed.

Lemma over_events es : forall (w : World) j', In j' (q_jobs (q_events w es)) ->
  exists j, In j (q_jobs w) /\ j_id j' = j_id j /\ j_owner j' = j_owner j /\ (over (j_state j) = true -> over (j_state j') = true).
Proof.
  induction es as [|e es IH]; intros w j' I; [exists j'; auto|].
  cbn in I. apply IH in I. destruct I as (k & K & A & B & C). apply event_jobs in K.
  destruct K as (j & J & A' & B' & C' & _). exists j. repeat split; auto; congruence.
Qed.

Lemma free_call w c : clear_bsub bsub_text -> clear_bjobs bjobs_text -> Forall free_event (call_events c) ->
  Inv w -> Free w -> Free (b_call w c).
Proof.
  intros C B. apply (call_keeps free_event); auto.
  - exact free_drift.
  - intros v Iv [Hh Hp]. constructor; [exact Hh|]. cbn [q_procs q_jobs]. intros j p J O G.
    rewrite nth_error_app1 in G by (apply (i_own _ Iv _ J)). eauto.
  - intros v i p h N [Hh Hp]. constructor; [exact Hh|]. cbn [set_p q_procs q_jobs]. intros j q J O G.
    apply set_at_get in G. destruct G as [(E & -> & _)|(_ & G)]; [|eauto]. cbn [b_pid]. apply Hp; auto. rewrite <- E. exact N.
  - intros v i p id N P [Hh Hp]. constructor; auto.
  - intros v i es w1 p Iv Fv Fe A N.
    pose proof (free_dead _ _ _ B Iv Fv A) as D.
    assert (F2 : Free (q_events w1 es)).
    { eapply free_drift; [|exact Fv]. eapply drift_trans; [|apply events_drift; exact Fe].
      pose proof (alive_drift free_event v i) as DD. rewrite A in DD. exact DD. }
    destruct F2 as [Hh Hp]. constructor; cbn [submitted set_p q_procs q_jobs].
    + intros j u J. apply in_app_iff in J. destruct J as [J|[<-|[]]]; [eauto|discriminate].
    + intros j q J O G. apply in_app_iff in J. apply set_at_get in G. destruct J as [J|[<-|[]]].
      * destruct G as [(E & _)|(_ & G)]; [|eauto]. exfalso.
        apply over_events in J. destruct J as (k & K & _ & X & Y).
        destruct (alive_jobs _ _ _ _ A) as (Z & _). rewrite Z in K.
        rewrite Y in O; [discriminate|]. apply D; auto. congruence.
      * destruct G as [(_ & -> & _)|(X & _)]; [reflexivity|]. cbn in X. congruence.
Qed.
Lemma calls_keep (I : World -> Prop) (G : BCall -> Prop) n l : clear_bsub bsub_text -> (0 <= n)%Z ->
  I (w_init n) -> (forall w c, G c -> Inv w -> I w -> I (b_call w c)) -> Forall G l ->
  I (b_calls bsub_text bjobs_text dl n l).
Proof.
  intros C N I0 K F. induction l as [|c l IH] using rev_ind; [exact I0|].
  apply Forall_app in F. destruct F as (F & Gc). inversion Gc; subst.
  unfold b_calls. rewrite fold_left_app. apply K; [assumption|apply inv_calls; assumption|apply IH, F].
Qed.
Lemma free_calls n l : clear_bsub bsub_text -> clear_bjobs bjobs_text -> (0 <= n)%Z -> unheld l ->
  Free (b_calls bsub_text bjobs_text dl n l).
Proof.
  intros C B N U. refine (calls_keep Free _ n l C N _ _ U).
  - constructor; cbn; tauto.
  - intros w c Fc Iw Fw. apply free_call; auto.
Qed.

(** ** Proper words *)
Definition Proper (w : World) : Prop := forall j u, In j (q_jobs w) -> j_state j = Held u -> held_word u.
Lemma proper_drift w w' : drift proper_event w w' -> Proper w -> Proper w'.
Proof.
  apply drift_keeps; clear w w'; [|auto].
  intros w e Pe Pw j' u I U. apply event_jobs in I. destruct I as (j & I & _ & _ & _ & [E|[(id & E)|E]]).
  - rewrite E in U. eauto.
  - rewrite U in E. subst e. exact Pe.
  - congruence.
Qed.
Lemma proper_calls n l : clear_bsub bsub_text -> (0 <= n)%Z -> proper l ->
  Proper (b_calls bsub_text bjobs_text dl n l).
Proof.
  intros C N U. refine (calls_keep Proper _ n l C N _ _ U).
  - intros j u [].
  - apply (call_keeps proper_event); auto.
    + exact proper_drift.
    + intros w i es w1 p Iw Pw Fe A Np.
      assert (P2 : Proper (q_events w1 es)).
      { eapply proper_drift; [|exact Pw]. eapply drift_trans; [|apply events_drift; exact Fe].
        pose proof (alive_drift proper_event w i) as DD. rewrite A in DD. exact DD. }
      intros j u J S0. cbn [submitted set_p q_jobs] in J. apply in_app_iff in J. destruct J as [J|[<-|[]]]; [eauto|discriminate].
Qed.

(** ** Outputs *)
Definition Origin (T : list QEvent) (w : World) : Prop :=
  forall i (p : BProc) f, nth_error (q_procs w) i = Some p -> b_out p = Some f ->
    exists id j, In (Output id f) T /\ In j (q_jobs w) /\ j_id j = id /\ j_owner j = i.
Lemma origin_drift T w w' : drift (fun e => In e T) w w' -> Origin T w -> Origin T w'.
Proof.
  apply drift_keeps; clear w w'.
  - intros w e Te O i p' f N Q.
    destruct (event_procs w e i) as [E|(id & j & p & g & Ee & J & Ij & Oj & _ & P & E)].
    + rewrite E in N. destruct (O _ _ _ N Q) as (id & j & A & J & B & C).
      destruct (event_jobs_fwd w e j J) as (j' & J' & B' & C'). exists id, j'. repeat split; auto; congruence.
    + rewrite E in N. injection N as <-. cbn in Q. injection Q as ->.
      destruct (event_jobs_fwd w e j J) as (j' & J' & B' & C'). exists id, j'. subst e. repeat split; auto; congruence.
  - intros w i p x N P O k q f G Q. cbn [set_p q_procs q_jobs] in *. apply set_at_get in G.
    destruct G as [(<- & -> & _)|(_ & G)]; eauto.
Qed.
Lemma origin_calls n l : clear_bsub bsub_text -> (0 <= n)%Z ->
  Origin (concat (map call_events l)) (b_calls bsub_text bjobs_text dl n l).
Proof.
  intros C N. set (T := concat (map call_events l)).
  apply (calls_keep (Origin T) (fun c => Forall (fun e => In e T) (call_events c)) n l C N).
  - intros i. destruct i; discriminate.
  - apply call_keeps; auto.
    + apply origin_drift.
    + intros w _ O i p f G Q. cbn [q_procs q_jobs] in *.
      destruct (Compare_dec.lt_dec i (List.length (q_procs w))) as [a|a].
      * rewrite nth_error_app1 in G by exact a. eauto.
      * rewrite nth_error_app2 in G by lia. destruct (i - List.length (q_procs w))%nat as [|[|]]; cbn in G; try discriminate.
        injection G as <-. discriminate.
    + intros w i p h Np O k q f G Q. cbn [set_p q_procs q_jobs] in *. apply set_at_get in G.
      destruct G as [(<- & -> & _)|(_ & G)]; eauto.
    + intros w i es w1 p Iw O Fe A Np.
      assert (O2 : Origin T (q_events w1 es)).
      { eapply origin_drift; [|exact O]. eapply drift_trans; [|apply events_drift; exact Fe].
        pose proof (alive_drift (fun e => In e T) w i) as DD. rewrite A in DD. exact DD. }
      intros k q f G Q. cbn [submitted set_p q_procs q_jobs] in *. apply set_at_get in G.
      assert (X : exists id j, In (Output id f) T /\ In j (q_jobs (q_events w1 es)) /\ j_id j = id /\ j_owner j = k).
      { destruct G as [(<- & -> & _)|(_ & G)]; eauto. }
      destruct X as (id & j & A1 & A2 & A3 & A4). exists id, j. repeat split; auto. apply in_or_app. auto.
  - apply Forall_forall. intros c I. apply Forall_forall. intros e J. unfold T. apply in_concat. eexists.
    split; [apply in_map; exact I|exact J].
Qed.
End Proofs.

Section Later.
Context {H V : Type}.
Notation World := (@World H V).
Notation QEvent := (@QEvent V).
Notation BProc := (@BProc H V).
Notation BCall := (@BCall H V).
Variable bsub_text : Z -> Text.
Variable bjobs_text : Z -> JState -> Text.
Variable dl : Dialect.
Notation b_alive := (@b_alive H V bjobs_text).
Notation b_start := (@b_start H V bsub_text bjobs_text).
Notation b_get := (@b_get H V bjobs_text).
Notation b_join := (@b_join H V bjobs_text).
Notation b_call := (@b_call H V bsub_text bjobs_text dl).

(** * Forgotten jobs *)
Definition Lost (i : nat) (id : Z) (w : World) : Prop :=
  (exists p, nth_error (q_procs w) i = Some p /\ b_pid p = Some id) /\
  (exists j, In j (q_jobs w) /\ j_id j = id /\ j_state j = Gone).

Lemma event_gone (w : World) e j : In j (q_jobs w) -> j_state j = Gone -> In j (q_jobs (q_event w e)).
Proof.
  intros I G. destruct e as [id s|id f|n]; cbn [q_event].
  - cbn [q_jobs]. apply in_map_iff. exists j. split; [|exact I]. destruct (j_id j =? id)%Z; [|reflexivity].
    unfold move. rewrite G. reflexivity.
  - destruct (job_of w id) as [k|]; [|exact I].
    destruct (j_state k); destruct (nth_error (q_procs w) (j_owner k)); exact I.
  - exact I.
Qed.
Lemma event_pid_fwd (w : World) e i (p : BProc) : nth_error (q_procs w) i = Some p ->
  exists p', nth_error (q_procs (q_event w e)) i = Some p' /\ b_pid p' = b_pid p.
Proof.
  intros N. destruct (event_procs w e i) as [E|(id & j & q & f & _ & _ & _ & _ & _ & P & Q)].
  - rewrite E. eauto.
  - rewrite P in N. injection N as <-. eauto.
Qed.
Lemma set_pid (w : World) k (q q' : BProc) i (p : BProc) : nth_error (q_procs w) k = Some q -> b_pid q' = b_pid q ->
  nth_error (q_procs w) i = Some p -> exists p', nth_error (q_procs (set_p w k q')) i = Some p' /\ b_pid p' = b_pid p.
Proof.
  intros N Q G. cbn [set_p q_procs]. destruct (PeanoNat.Nat.eq_dec k i) as [->|D].
  - rewrite set_at_same by (eapply some_lt; eauto). rewrite N in G. injection G as <-. eauto.
  - rewrite set_at_other by exact D. eauto.
Qed.
Lemma lost_drift E i id w w' : drift E w w' -> Lost i id w -> Lost i id w'.
Proof.
  apply drift_keeps; clear w w'.
  - intros w e _ ((p & N & P) & (j & J & Ij & G)). split.
    + destruct (event_pid_fwd w e i p N) as (p' & N' & P'). exists p'. split; congruence.
    + exists j. split; [apply event_gone; auto|auto].
  - intros w k q x N Q ((p & N' & P) & L). split; [|exact L].
    destruct (set_pid w k q (mkBProc (b_pid q) (Some x) (b_hits q) (b_jar q) (b_out q)) i p N eq_refl N') as (p' & A & B).
    exists p'. split; [exact A|congruence].
Qed.
Lemma lost_alive i id w : Inv w -> Lost i id w -> b_alive w i = (w, inl BCalled).
Proof.
  intros I ((p & N & P) & (j & J & Ij & G)). unfold BatchModel.b_alive. rewrite N, P. unfold bjobs.
  rewrite <- Ij, (job_of_in _ _ I J), G. reflexivity.
Qed.
Lemma lost_call i id w c : clear_bsub bsub_text -> Inv w -> Lost i id w -> Lost i id (b_call w c).
Proof.
  intros C. apply (call_keeps bsub_text bjobs_text dl (fun _ => True)); auto.
  - apply lost_drift.
  - intros v _ ((p & N & P) & L). split; [|exact L]. exists p. cbn [q_procs].
    rewrite nth_error_app1 by (eapply some_lt; eauto). auto.
  - intros v k q h N ((p & N' & P) & L). split; [|exact L].
    destruct (set_pid v k q (mkBProc (b_pid q) (b_exit q) (Some h) (Some (Whole (Some h))) (b_out q)) i p N eq_refl N')
      as (p' & A & B). exists p'. split; [exact A|congruence].
  - intros v k es w1 p Iv Lv _ A N.
    assert (L2 : Lost i id (q_events w1 es)).
    { apply (lost_drift (fun _ => True) i id v); [|exact Lv].
      eapply drift_trans; [|apply events_drift; apply Forall_forall; auto].
      pose proof (alive_drift bjobs_text (fun _ => True) v k) as DD. rewrite A in DD. exact DD. }
    destruct L2 as ((q & Nq & Pq) & (j & J & Ij & G)).
    destruct (PeanoNat.Nat.eq_dec k i) as [->|D].
    { rewrite (lost_alive _ _ _ Iv Lv) in A. discriminate. }
    split.
    + exists q. cbn [submitted set_p q_procs]. rewrite set_at_other by exact D. auto.
    + exists j. cbn [submitted set_p q_jobs]. split; [apply in_or_app; auto|auto].
  - apply Forall_forall. auto.
Qed.

(** * Outputs of directories in which nothing runs *)
Lemma event_out (w : World) e i (p : BProc) :
  (forall j, In j (q_jobs w) -> j_owner j = i -> over (j_state j) = true) ->
  nth_error (q_procs w) i = Some p -> nth_error (q_procs (q_event w e)) i = Some p.
Proof.
  intros O N. destruct (event_procs w e i) as [E|(id & j & q & f & _ & J & _ & Oj & S0 & _)]; [congruence|].
  specialize (O _ J Oj). rewrite S0 in O. discriminate.
Qed.
Lemma events_out es : forall (w : World) i (p : BProc),
  (forall j, In j (q_jobs w) -> j_owner j = i -> over (j_state j) = true) ->
  nth_error (q_procs w) i = Some p -> nth_error (q_procs (q_events w es)) i = Some p.
Proof.
  induction es as [|e es IH]; intros w i p O N; [exact N|]. cbn. apply IH; [|apply event_out; auto].
  intros j' J Oj. apply event_jobs in J. destruct J as (j & J & _ & B & C & _). apply C, O; congruence.
Qed.
Lemma over_later es (w : World) i :
  (forall j, In j (q_jobs w) -> j_owner j = i -> over (j_state j) = true) ->
  forall j, In j (q_jobs (q_events w es)) -> j_owner j = i -> over (j_state j) = true.
Proof.
  intros O j' J Oj. apply over_events in J. destruct J as (j & J & _ & B & C). apply C, O; congruence.
Qed.

(** What a successful get_return_value has seen. *)
Lemma get_cases w i e1 e2 v w' : b_get w i e1 e2 = (w', inr v) ->
  exists w1, b_alive w i = (w1, inr false) /\ w' = q_events (q_events w1 e1) e2 /\
    (exists p, nth_error (q_procs w1) i = Some p /\ b_exit p <> None) /\
    (exists p, nth_error (q_procs w') i = Some p /\ b_out p = Some (Whole v)).
Proof.
  unfold BatchModel.b_get. destruct (b_alive w i) as [w1 [e|[|]]]; try discriminate.
  destruct (nth_error (q_procs w1) i) as [p|] eqn:N; [|discriminate].
  destruct (b_exit p) eqn:X; [|discriminate].
  destruct (nth_error (q_procs (q_events w1 e1)) i) as [p2|]; [|discriminate].
  destruct (b_out p2); [|discriminate].
  destruct (nth_error (q_procs (q_events (q_events w1 e1) e2)) i) as [p3|] eqn:N3; [|discriminate].
  destruct (b_out p3) as [[u|]|] eqn:O3; try discriminate. intros [= <- <-].
  exists w1. repeat split; auto.
  - exists p. split; [auto|congruence].
  - exists p3. auto.
Qed.

Lemma join_over r : forall l w i w', l = None -> clear_bjobs bjobs_text -> Inv w -> Free w -> Forall free_event (concat r) ->
  b_join r l w i = (w', inr true) ->
  forall j, In j (q_jobs w') -> j_owner j = i -> over (j_state j) = true.
Proof.
  induction r as [|es r IH]; intros l w i w' -> C I F Fe.
  - cbn [BatchModel.b_join]. destruct (b_alive w i) as [w1 [e|a]] eqn:A; [discriminate|].
    rewrite andb_true_r. destruct a; [discriminate|]. intros [= <-] j J.
    destruct (alive_jobs bjobs_text _ _ _ _ A) as (Q & _). rewrite Q in J. eapply free_dead; eauto.
  - cbn [BatchModel.b_join]. destruct (b_alive w i) as [w1 [e|a]] eqn:A; [discriminate|].
    rewrite andb_true_r. cbn [concat] in Fe. apply Forall_app in Fe. destruct Fe as (F1 & F2).
    destruct a.
    + intros E. apply (IH None (q_events w1 es) i w' eq_refl C); auto.
      * eapply inv_drift; [|exact I]. eapply drift_trans; [|apply (events_drift free_event); exact F1].
        pose proof (alive_drift bjobs_text free_event w i) as DD. rewrite A in DD. exact DD.
      * eapply free_drift; [|exact F]. eapply drift_trans; [|apply (events_drift free_event); exact F1].
        pose proof (alive_drift bjobs_text free_event w i) as DD. rewrite A in DD. exact DD.
    + intros [= <-] j J. destruct (alive_jobs bjobs_text _ _ _ _ A) as (Q & _). rewrite Q in J. eapply free_dead; eauto.
Qed.

Lemma events_gone es : forall (w : World) j, In j (q_jobs w) -> j_state j = Gone -> In j (q_jobs (q_events w es)).
Proof. induction es as [|e es IH]; intros w j J G; [exact J|]. cbn. apply IH; [apply event_gone; auto|exact G]. Qed.

Lemma join_returns r : forall w i, clear_bjobs bjobs_text -> Inv w -> Free w -> Forall free_event (concat r) ->
  (i < List.length (q_procs w))%nat ->
  (forall j, In j (q_jobs (q_events w (concat r))) -> j_owner j = i -> exists c, j_state j = Ended c) ->
  exists w', b_join r None w i = (w', inr true).
Proof.
  induction r as [|es r IH]; intros w i C I F Fe L Q; cbn [BatchModel.b_join].
  - destruct (nth_error (q_procs w) i) as [p|] eqn:N; [|apply nth_error_None in N; lia].
    destruct (b_pid p) as [id|] eqn:P.
    + destruct (alive_state bjobs_text w i p id C I (fun k u K U => False_ind _ (f_held _ F _ _ K U)) N P) as (j & J & _ & O & M).
      destruct (Q j J O) as (c & S0). rewrite S0 in M. destruct M as (x & M & _). rewrite M. eexists. reflexivity.
    + unfold BatchModel.b_alive. rewrite N, P. eexists. reflexivity.
  - destruct (nth_error (q_procs w) i) as [p|] eqn:N; [|apply nth_error_None in N; lia].
    destruct (b_pid p) as [id|] eqn:P.
    2:{ unfold BatchModel.b_alive. rewrite N, P. eexists. reflexivity. }
    destruct (alive_state bjobs_text w i p id C I (fun k u K U => False_ind _ (f_held _ F _ _ K U)) N P) as (j & J & _ & O & M).
    cbn [concat] in Fe, Q. apply Forall_app in Fe. destruct Fe as (F1 & F2).
    assert (K : exists w', b_join r None (q_events w es) i = (w', inr true)).
    { apply IH; auto.
      - eapply inv_drift; [apply (events_drift free_event); exact F1|exact I].
      - eapply free_drift; [apply (events_drift free_event); exact F1|exact F].
      - clear -L. revert w L. induction es as [|e es IH]; intros w L; [exact L|]. cbn. apply IH. rewrite event_length. exact L.
      - unfold q_events in *. rewrite fold_left_app in Q. exact Q. }
    destruct (j_state j) as [| | |u|c|] eqn:S0; try (rewrite M; exact K).
    + destruct (f_held _ F _ _ J S0).
    + destruct M as (x & M & _). rewrite M. eexists. reflexivity.
    + exfalso. destruct (Q j) as (c & X); auto; [apply events_gone; auto|congruence].
Qed.

(** * The pickled process *)
Definition Pickled (w : World) : Prop :=
  forall i (p : BProc), nth_error (q_procs w) i = Some p -> b_jar p = Some (Whole (b_hits p)).
Lemma pickled_drift E w w' : drift E w w' -> Pickled w -> Pickled w'.
Proof.
  apply drift_keeps; clear w w'.
  - intros w e _ P i p' N. destruct (event_procs w e i) as [X|(id & j & p & f & _ & _ & _ & _ & _ & Q & X)]; rewrite X in N.
    + exact (P _ _ N).
    + injection N as <-. exact (P _ _ Q).
  - intros w i p x N _ P k q G. cbn [set_p q_procs] in G. apply set_at_get in G.
    destruct G as [(_ & -> & _)|(_ & G)]; [exact (P _ _ N)|exact (P _ _ G)].
Qed.
Lemma pickled_calls n l : clear_bsub bsub_text -> (0 <= n)%Z -> Pickled (b_calls bsub_text bjobs_text dl n l).
Proof.
  intros C N. apply (calls_keep bsub_text bjobs_text dl Pickled (fun _ => True) n l C N).
  - intros i. destruct i; discriminate.
  - intros w c _. apply (call_keeps bsub_text bjobs_text dl (fun _ => True)); auto.
    + apply pickled_drift.
    + intros v _ P i p G. cbn [q_procs] in G. destruct (Compare_dec.lt_dec i (List.length (q_procs v))) as [a|a].
      * rewrite nth_error_app1 in G by exact a. exact (P _ _ G).
      * rewrite nth_error_app2 in G by lia. destruct (i - List.length (q_procs v))%nat as [|[|]]; cbn in G; try discriminate.
        injection G as <-. reflexivity.
    + intros v i p h Np P k q G. cbn [set_p q_procs] in G. apply set_at_get in G.
      destruct G as [(_ & -> & _)|(_ & G)]; [reflexivity|exact (P _ _ G)].
    + intros v i es w1 p _ P _ A Np.
      assert (P2 : Pickled (q_events w1 es)).
      { eapply (pickled_drift (fun _ => True)); [|exact P].
        eapply drift_trans; [|apply events_drift; apply Forall_forall; auto].
        pose proof (alive_drift bjobs_text (fun _ => True) v i) as DD. rewrite A in DD. exact DD. }
      intros k q G. cbn [submitted set_p q_procs] in G. apply set_at_get in G.
      destruct G as [(_ & -> & _)|(_ & G)]; [exact (P2 _ _ Np)|exact (P2 _ _ G)].
    + apply Forall_forall. auto.
  - apply Forall_forall. auto.
Qed.
End Later.
