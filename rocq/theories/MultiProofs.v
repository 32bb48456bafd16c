From Coq Require Import ZArith List Bool Lia.
From Verif Require Import TrackModel TrackSpec TrackProofs.
Import ListNotations.
Open Scope list_scope.

Section Proofs.
Context {H T : Type}.
Variable dl : Dialect.
Variable track : list H -> option (list T).
Notation SysHT := (@Sys H T).
Notation CallH := (@Call H).
Notation events := (events dl track).
Notation event := (event dl track).

(** * Frame of a child's step *)

Definition about (e : Event) (k : nat) : Prop :=
  match e with Step k' => k' = k | Die k' _ => k' = k end.

Lemma kid_step_kids s k : exists ph,
  kids (kid_step dl track s k) =
  match nth_error (kids s) k with
  | Some kid => set_at (kids s) k (mkKid (k_dir kid) (k_cwd kid) ph)
  | None => kids s
  end.
Proof.
  unfold kid_step. destruct (nth_error (kids s) k) as [kid|] eqn:G; [|exists Boot; auto].
  assert (X : forall d f, kids (write_sandwich s d f) = kids s)
    by (intros; apply write_sandwich_dirs).
  destruct kid as [d cw ph]. simpl. destruct ph as [ | h | h | v | v | | c]; simpl.
  - destruct (nth_error (dirs s) d) as [[[[h|]|] sw]|]; try destruct (text_pickle dl);
      simpl; eauto.
  - destruct cw; simpl; rewrite ?X; eauto.
  - destruct (track h); simpl; eauto.
  - rewrite X; eauto.
  - destruct (text_pickle dl); simpl; rewrite ?X; eauto.
  - eauto.
  - exists (Exited c). clear X. revert k G. induction (kids s); intros [|k] G; simpl in *; try discriminate.
    + inversion G; auto.
    + rewrite <- IHl; auto.
Qed.

Lemma event_kids s e k kid :
  nth_error (kids (event s e)) k = Some kid ->
  exists kid0, nth_error (kids s) k = Some kid0 /\ k_dir kid0 = k_dir kid /\
               k_cwd kid0 = k_cwd kid /\ (~ about e k -> kid0 = kid).
Proof.
  destruct e as [k'|k' c]; simpl.
  - destruct (kid_step_kids s k') as [ph E]. rewrite E.
    destruct (nth_error (kids s) k') as [kid'|] eqn:G; intros X; eauto.
    apply set_at_get in X. destruct X as [(-> & -> & ?)|(? & X)]; eauto.
    exists kid'. repeat split; auto. intros N; exfalso; apply N; auto.
  - destruct (nth_error (kids s) k') as [kid'|] eqn:G; intros X; eauto.
    assert (Y : nth_error (kids (set_phase s k' kid' (Exited c))) k = Some kid \/
                nth_error (kids s) k = Some kid)
      by (destruct (k_phase kid'); auto).
    destruct Y as [Y|Y]; eauto. simpl in Y.
    apply set_at_get in Y. destruct Y as [(-> & -> & ?)|(? & Y)]; eauto.
    exists kid'. repeat split; auto. intros N; exfalso; apply N; auto.
Qed.

Lemma event_kid_other s e k :
  ~ about e k -> nth_error (kids (event s e)) k = nth_error (kids s) k.
Proof.
  intros N. destruct (nth_error (kids (event s e)) k) as [kid|] eqn:E.
  - apply event_kids in E. destruct E as (kid0 & E0 & _ & _ & E1). rewrite E0.
    rewrite (E1 N); auto.
  - apply nth_error_None in E. symmetry. apply nth_error_None.
    destruct (events_frame dl track [e] s) as (_ & _ & _ & L).
    unfold TrackModel.events in L. simpl in L. lia.
Qed.

Lemma event_dir_other s e d :
  (forall k kid, about e k -> nth_error (kids s) k = Some kid ->
     k_dir kid <> d /\ k_cwd kid <> Some d) ->
  nth_error (dirs (event s e)) d = nth_error (dirs s) d.
Proof.
  intros N. destruct e as [k|k c]; simpl.
  - unfold kid_step. destruct (nth_error (kids s) k) as [kid|] eqn:G; auto.
    destruct (N k kid eq_refl G) as [Hd Hc].
    destruct (k_phase kid); simpl; auto.
    + destruct (nth_error (dirs s) (k_dir kid)) as [[[[h|]|] sw]|]; try destruct (text_pickle dl);
        simpl; auto.
    + destruct (k_cwd kid) as [d'|]; simpl; auto. apply write_sandwich_other. congruence.
    + destruct (track h); auto.
    + apply write_sandwich_other; auto.
    + destruct (text_pickle dl); simpl; auto. apply write_sandwich_other; auto.
  - destruct (nth_error (kids s) k) as [kid|]; auto. destruct (k_phase kid); auto.
Qed.

(** * A job: an object with its own directory and a child started in it *)

Definition good (died : bool) (h : list H) (ph : @Phase H T) (f : option (@File (list T))) : Prop :=
  match ph with
  | Boot => f = None
  | Loaded h' | Cleared h' => h' = h /\ f = None
  | Computed v => track h = Some v /\ f = None
  | Writing v => track h = Some v /\ f = Some Truncated
  | Written => exists v, track h = Some v /\ f = Some (Whole v)
  | Exited c => (exists v, track h = Some v /\ f = Some (Whole v)) \/
                (track h = None /\ f = None) \/
                (died = true /\ (f = None \/ f = Some Truncated))
  end.

Record Job (died : bool) (s : SysHT) (j k d : nat) (h : list H) : Prop := mkJob {
  j_proc : exists e, nth_error (procs s) j = Some (mkProc d (Some h) (Some k) e);
  j_kid : exists cw ph f, nth_error (kids s) k = Some (mkKid d cw ph) /\
            nth_error (dirs s) d = Some (mkDir (Some (Whole h)) f) /\ good died h ph f;
  j_excl : forall k' kid, k' <> k -> nth_error (kids s) k' = Some kid ->
            k_dir kid <> d /\ k_cwd kid <> Some d
}.

Lemma good_exit died h ph f c :
  good died h ph f -> died = true -> good died h (Exited c) f.
Proof.
  intros G ->. destruct ph; simpl in *; auto.
  - destruct G as [_ ->]; auto.
  - destruct G as [_ ->]; auto.
  - destruct G as [_ ->]; auto.
  - destruct G as [_ ->]; auto.
Qed.

Lemma job_event died s j k d h e :
  text_pickle dl = true -> (died = true \/ forall c, e <> Die k c) ->
  Job died s j k d h -> Job died (event s e) j k d h.
Proof.
  intros TP NE [A B C]. constructor.
  - destruct (events_frame dl track [e] s) as (F & _). unfold TrackModel.events in F. simpl in F.
    rewrite F. auto.
  - destruct B as (cw & ph & f & K & D & G).
    assert (Dec : about e k \/ ~ about e k)
      by (destruct e as [k'|k' c]; simpl; destruct (Nat.eq_dec k' k); auto).
    destruct Dec as [Ab|Ab].
    2:{ exists cw, ph, f. rewrite event_kid_other by auto. split; auto. split; auto.
        rewrite event_dir_other; auto. intros k' kid Ab' Hk. apply (C k'); auto.
        intros ->. auto. }
    assert (Kl : k < length (kids s)) by (eapply some_lt; eauto).
    assert (Dl : d < length (dirs s)) by (eapply some_lt; eauto).
    assert (W : forall d f, kids (write_sandwich s d f) = kids s)
      by (intros; apply write_sandwich_dirs).
    destruct e as [k'|k' c]; simpl in Ab; subst k'.
    + unfold TrackModel.event, kid_step. rewrite K. simpl.
      destruct ph as [ | h' | h' | v | v | | c]; simpl in G.
      * rewrite D, TP. exists cw, (Loaded h), f. simpl. rewrite set_at_same by auto. auto.
      * destruct G as [-> ->]. exists cw, (Cleared h), None. simpl. destruct cw as [d'|]; simpl.
        -- rewrite W, set_at_same by auto. split; auto. split; [|simpl; auto].
           destruct (Nat.eq_dec d' d) as [-> | N].
           ++ rewrite (write_sandwich_same _ _ _ _ D). auto.
           ++ rewrite write_sandwich_other; auto.
        -- rewrite set_at_same by auto. simpl; auto.
      * destruct G as [-> ->]. destruct (track h) as [v|] eqn:Et.
        -- exists cw, (Computed v), None. simpl. rewrite set_at_same by auto. auto.
        -- exists cw, (Exited 1%Z), None. simpl. rewrite set_at_same by auto. auto 6.
      * destruct G as [Et ->]. exists cw, (Writing v), (Some Truncated). simpl.
        rewrite W, set_at_same by auto. rewrite (write_sandwich_same _ _ _ _ D). auto.
      * destruct G as [Et ->]. rewrite TP. exists cw, Written, (Some (Whole v)). simpl.
        rewrite W, set_at_same by auto. rewrite (write_sandwich_same _ _ _ _ D). simpl; eauto.
      * exists cw, (Exited 0%Z), f. simpl. rewrite set_at_same by auto. auto.
      * exists cw, (Exited c), f. simpl. rewrite K. auto.
    + destruct NE as [-> | NE]; [|exfalso; eapply NE; eauto].
      simpl. rewrite K. simpl.
      destruct ph eqn:Ep;
        try (exists cw, (Exited c), f; simpl; rewrite set_at_same by auto;
             split; auto; split; auto; apply (good_exit true h ph f c); subst; auto; fail).
      exists cw, (Exited code), f. rewrite K. auto.
  - intros k' kid N X. apply event_kids in X.
    destruct X as (kid0 & X & <- & <- & _). apply (C k' kid0); auto.
Qed.

Lemma job_events died s j k d h es :
  text_pickle dl = true -> (died = true \/ survives k es) ->
  Job died s j k d h -> Job died (events s es) j k d h.
Proof.
  intros TP. unfold TrackModel.events. revert s. induction es as [|e es IH]; intros s N J; simpl; auto.
  apply IH.
  - destruct N as [N|N]; auto. right. intros c X. apply (N c). simpl; auto.
  - apply job_event; auto. destruct N as [N|N]; auto. right. intros c ->. apply (N c). simpl; auto.
Qed.

Lemma job_ext died (s s' : SysHT) j k d h :
  Job died s j k d h ->
  (exists e, nth_error (procs s') j = Some (mkProc d (Some h) (Some k) e)) ->
  nth_error (kids s') k = nth_error (kids s) k ->
  nth_error (dirs s') d = nth_error (dirs s) d ->
  (forall k' kid, nth_error (kids s') k' = Some kid ->
     nth_error (kids s) k' = Some kid \/ (k_dir kid <> d /\ k_cwd kid <> Some d)) ->
  Job died s' j k d h.
Proof.
  intros [A B C] X Y Z W. constructor; auto.
  - rewrite Y, Z. auto.
  - intros k' kid N Hk. destruct (W _ _ Hk) as [G|G]; eauto.
Qed.

Lemma job_is_alive died s i j k d h :
  Job died s j k d h -> Job died (fst (is_alive s i)) j k d h.
Proof.
  intros J. destruct (is_alive s i) as [s1 al] eqn:EA. simpl.
  apply is_alive_spec in EA. destruct EA as (e1 & e2 & _ & _ & _ & e3 & _ & _ & _ & e4 & _).
  eapply job_ext; eauto; rewrite ?e1, ?e2; auto.
  destruct (j_proc _ _ _ _ _ _ J) as [e G].
  destruct (Nat.eq_dec j i) as [-> | N].
  - exists (poll s k). rewrite (e4 _ k G eq_refl). auto.
  - exists e. rewrite e3; auto.
Qed.

Lemma job_lt P died s j k d h : Inv track P s -> Job died s j k d h -> d < length (dirs s).
Proof. intros I [A [cw [ph [f [K [D G]]]]] C]. eapply some_lt; eauto. Qed.

Lemma job_copy died s i j k d h :
  Job died s j k d h -> Job died (fst (copy_process s i)) j k d h.
Proof.
  intros J. unfold copy_process. destruct (nth_error (procs s) i) as [p|]; auto.
  destruct (p_child p); auto. simpl. eapply job_ext; eauto.
  destruct (j_proc _ _ _ _ _ _ J) as [e G]. exists e. simpl.
  rewrite nth_error_app1; auto. eapply some_lt; eauto.
Qed.

Lemma job_new_dir P died s i j k d h :
  Inv track P s -> i <> j -> Job died s j k d h -> Job died (new_out_dir s i) j k d h.
Proof.
  intros I N J. unfold new_out_dir. destruct (nth_error (procs s) i) as [p|]; auto.
  eapply job_ext; eauto; simpl; auto.
  - destruct (j_proc _ _ _ _ _ _ J) as [e G]. exists e. rewrite set_at_other; auto.
  - rewrite nth_error_app1; auto. eapply job_lt; eauto.
Qed.

Lemma job_set_hits died s i j k d h h' es :
  text_pickle dl = true -> i <> j -> out_dir s i <> Some d -> (died = true \/ survives k es) ->
  Job died s j k d h -> Job died (fst (set_hit_list dl track s i h' es)) j k d h.
Proof.
  intros TP N O S J. unfold set_hit_list. unfold out_dir in O.
  destruct (nth_error (procs s) i) as [p|] eqn:G; auto. simpl in O.
  assert (Od : d <> p_dir p) by congruence.
  assert (W : forall (s : SysHT) f, Job died s j k d h -> Job died (write_jar s (p_dir p) f) j k d h).
  { intros s0 f J0. destruct (write_jar_dirs s0 (p_dir p) f) as (e1 & e2 & e3 & e4).
    eapply job_ext; eauto; rewrite ?e1, ?e2; auto.
    - apply (j_proc _ _ _ _ _ _ J0).
    - apply write_jar_other; auto. }
  assert (K : Job died (events (write_jar (set_proc s i
              (mkProc (p_dir p) (Some h') (p_child p) (p_exit p))) (p_dir p) Truncated) es) j k d h).
  { apply job_events; auto. apply W. eapply job_ext; eauto.
    destruct (j_proc _ _ _ _ _ _ J) as [e Ge]. exists e. simpl. rewrite set_at_other; auto. }
  rewrite TP. destruct (p_child p); simpl; auto.
Qed.

Lemma job_start died s i j k d h found :
  i <> j -> out_dir s i <> Some d -> cwd s <> Some d ->
  Job died s j k d h -> Job died (fst (start s i found)) j k d h.
Proof.
  intros N O Cw J. unfold start.
  pose proof (job_is_alive died s i j k d h J) as J1.
  destruct (is_alive s i) as [s1 al] eqn:EA. simpl in J1.
  apply is_alive_spec in EA. destruct EA as (e1 & e2 & e3 & e4 & _).
  destruct al; auto. destruct (nth_error (procs s1) i) as [p|] eqn:G; auto.
  destruct found; auto. simpl. eapply job_ext; eauto; simpl.
  - destruct (j_proc _ _ _ _ _ _ J1) as [e Ge]. exists e. rewrite set_at_other; auto.
  - destruct (j_kid _ _ _ _ _ _ J1) as (cw & ph & f & Hk & _).
    rewrite nth_error_app1; auto. eapply some_lt; eauto.
  - intros k' kid X. apply nth_app_get in X. destruct X as [(_ & X)|(_ & ->)]; auto.
    right. simpl. split; [|congruence].
    intros Y. apply O. rewrite <- e4. unfold out_dir. rewrite G. simpl. congruence.
Qed.

(** Making a job: new_out_dir, set_hit_list and start. *)
Lemma make_job P s j e1 h e2 e3 s2 s3 :
  text_pickle dl = true -> Inv track P s -> j < length (procs s) -> child s j = None ->
  set_hit_list dl track (events (new_out_dir s j) e1) j h e2 = (s2, Ret tt) ->
  start (events s2 e3) j true = (s3, Ret tt) ->
  Job false s3 j (length (kids s)) (length (dirs s)) h /\
  length (kids s3) = S (length (kids s)) /\ length (dirs s3) = S (length (dirs s)) /\
  cwd s3 = cwd s /\ length (procs s3) = length (procs s) /\
  (forall i, i <> j -> nth_error (procs s3) i = nth_error (procs s) i).
Proof.
  intros TP I L C E1 E2.
  unfold child in C. destruct (nth_error (procs s) j) as [p|] eqn:G.
  2:{ apply nth_error_None in G. lia. }
  set (d := length (dirs s)) in *. set (k := length (kids s)).
  (* after new_out_dir *)
  set (s0 := new_out_dir s j) in *.
  assert (P0 : nth_error (procs s0) j = Some (mkProc d (p_hits p) None (p_exit p))).
  { unfold s0, new_out_dir. rewrite G. simpl. rewrite C. apply set_at_same; auto. }
  assert (Q0 : forall i, i <> j -> nth_error (procs s0) i = nth_error (procs s) i).
  { intros i N. unfold s0, new_out_dir. rewrite G. simpl. apply set_at_other; auto. }
  assert (L0 : length (procs s0) = length (procs s)).
  { unfold s0, new_out_dir. rewrite G. simpl. apply set_at_length. }
  assert (K0 : kids s0 = kids s /\ cwd s0 = cwd s /\ dirs s0 = dirs s ++ [mkDir None None]).
  { unfold s0, new_out_dir. rewrite G. auto. }
  destruct K0 as (K0 & W0 & D0).
  (* no child uses directory d *)
  assert (Ex : forall es k' kid (s' : SysHT), kids s' = kids s ->
             nth_error (kids (events s' es)) k' = Some kid -> k_dir kid < d /\
             (forall x, k_cwd kid = Some x -> x < d)).
  { intros es. induction es as [|e es IH] using rev_ind; intros k' kid s' Ks X.
    - simpl in X. rewrite Ks in X. destruct (i_kid _ _ _ I _ _ X) as (? & _ & ?). auto.
    - unfold TrackModel.events in X. rewrite fold_left_app in X. simpl in X.
      apply event_kids in X. destruct X as (kid0 & X & <- & <- & _). eauto. }
  assert (Fr : forall es (s' : SysHT), kids s' = kids s ->
             nth_error (dirs (events s' es)) d = nth_error (dirs s') d).
  { intros es. induction es as [|e es IH] using rev_ind; intros s' Ks; auto.
    unfold TrackModel.events. rewrite fold_left_app. simpl. fold (events s' es).
    rewrite event_dir_other; auto. intros k' kid _ X.
    destruct (Ex _ _ _ _ Ks X) as [Y Z]. split; [lia|]. intros W. specialize (Z _ W). lia. }
  (* set_hit_list *)
  set (s1 := events s0 e1) in *.
  destruct (events_frame dl track e1 s0) as (P1 & W1 & D1 & L1). fold s1 in P1, W1, D1, L1.
  unfold set_hit_list in E1. rewrite P1, P0, TP in E1. simpl in E1.
  set (s1' := set_proc s1 j (mkProc d (Some h) None (p_exit p))) in *.
  set (s1'' := write_jar s1' d Truncated) in *.
  assert (E1' : s2 = write_jar (events s1'' e2) d (Whole h)) by congruence. clear E1.
  destruct (write_jar_dirs s1' d Truncated) as (P2 & L2 & W2 & D2). fold s1'' in P2, L2, W2, D2.
  destruct (events_frame dl track e2 s1'') as (P3 & W3 & D3 & L3).
  destruct (write_jar_dirs (events s1'' e2) d (Whole h)) as (P4 & L4 & W4 & D4).
  rewrite <- E1' in P4, L4, W4, D4.
  destruct (events_frame dl track e3 s2) as (P5 & W5 & D5 & L5).
  assert (Hd1 : nth_error (dirs s1) d = Some (mkDir None None)).
  { unfold s1. rewrite Fr by auto. rewrite D0. unfold d. apply nth_app_last. }
  (* kids in the chain have the directories of the kids of s *)
  assert (Chain : forall es' k' kid (s' : SysHT),
     (forall k' kid, nth_error (kids s') k' = Some kid -> k_dir kid < d /\
             (forall x, k_cwd kid = Some x -> x < d)) ->
     nth_error (kids (events s' es')) k' = Some kid -> k_dir kid < d /\
             (forall x, k_cwd kid = Some x -> x < d)).
  { intros es'. induction es' as [|e es' IH] using rev_ind; intros k' kid s' Ks X; eauto.
    unfold TrackModel.events in X. rewrite fold_left_app in X. simpl in X.
    apply event_kids in X. destruct X as (kid0 & X & <- & <- & _). eauto. }
  assert (ChainD : forall es' (s' : SysHT),
     (forall k' kid, nth_error (kids s') k' = Some kid -> k_dir kid < d /\
             (forall x, k_cwd kid = Some x -> x < d)) ->
     nth_error (dirs (events s' es')) d = nth_error (dirs s') d).
  { intros es'. induction es' as [|e es' IH] using rev_ind; intros s' Ks; auto.
    unfold TrackModel.events. rewrite fold_left_app. simpl. fold (events s' es').
    rewrite event_dir_other; auto. intros k' kid _ X.
    destruct (Chain _ _ _ _ Ks X) as [Y Z]. split; [lia|]. intros W. specialize (Z _ W). lia. }
  assert (B1 : forall k' kid, nth_error (kids s1'') k' = Some kid -> k_dir kid < d /\
             (forall x, k_cwd kid = Some x -> x < d)).
  { intros k' kid X. rewrite L2 in X. apply (Ex e1 k' kid s0 K0). exact X. }
  assert (B2 : forall k' kid, nth_error (kids s2) k' = Some kid -> k_dir kid < d /\
             (forall x, k_cwd kid = Some x -> x < d)).
  { intros k' kid X. rewrite L4 in X. eapply Chain; eauto. }
  assert (Hd1'' : nth_error (dirs s1'') d = Some (mkDir (Some Truncated) None)).
  { unfold s1''. rewrite (write_jar_same _ _ _ (mkDir None None)); auto. }
  assert (Hd2 : nth_error (dirs s2) d = Some (mkDir (Some (Whole h)) None)).
  { rewrite E1'. rewrite (write_jar_same _ _ _ (mkDir (Some Truncated) None)); auto.
    rewrite ChainD; auto. }
  assert (Hd3 : nth_error (dirs (events s2 e3)) d = Some (mkDir (Some (Whole h)) None))
    by (rewrite ChainD; auto).
  assert (B3 : forall k' kid, nth_error (kids (events s2 e3)) k' = Some kid -> k_dir kid < d /\
             (forall x, k_cwd kid = Some x -> x < d))
    by (intros; eapply Chain; eauto).
  assert (Pj : procs (events s2 e3) = set_at (procs s0) j (mkProc d (Some h) None (p_exit p))).
  { rewrite P5, P4, P3, P2. unfold s1'. simpl. rewrite P1. auto. }
  assert (Lj : j < length (procs s0)) by lia.
  assert (Lk : length (kids (events s2 e3)) = k).
  { rewrite L5, L4, L3, L2. unfold s1'. simpl. rewrite L1, K0. auto. }
  assert (Ld : length (dirs (events s2 e3)) = S d).
  { rewrite D5, D4, D3, D2. unfold s1'. simpl. rewrite D1, D0, app_length. simpl. unfold d. lia. }
  assert (Wc : cwd (events s2 e3) = cwd s).
  { rewrite W5, W4, W3, W2. unfold s1'. simpl. rewrite W1. auto. }
  (* start *)
  unfold start, is_alive in E2.
  rewrite Pj, set_at_same in E2 by auto. simpl in E2.
  rewrite Pj, set_at_same in E2 by auto. simpl in E2.
  assert (E3 : s3 = fst (s3, @Ret unit tt)) by auto. rewrite <- E2 in E3. simpl in E3.
  clear E2. subst s3. simpl.
  rewrite Pj, Lk. simpl. rewrite !set_at_length, app_length, Lk, Ld, Wc. simpl.
  split; [|repeat split; auto; try lia].
  2:{ intros i N. rewrite !set_at_other by auto. auto. }
  constructor; simpl.
  - exists (p_exit p). rewrite set_at_same; auto.
    rewrite Pj, set_at_length; auto.
  - exists (cwd s), Boot, None. split; [rewrite <- Lk; apply nth_app_last|]. split; auto.
    simpl; auto.
  - intros k' kid N X. apply nth_app_get in X. rewrite Lk in X.
    destruct X as [(_ & X)|(? & _)]; [|lia].
    destruct (B3 _ _ X) as [Y Z]. split; [lia|]. intros W. specialize (Z _ W). lia.
Qed.

(** A child that has ended does nothing. *)
Lemma ended_event s k e : ended s k -> about e k -> event s e = s.
Proof.
  intros (kid & c0 & Hk & Hp) Ab.
  destruct e as [k'|k' c1]; simpl in Ab; subst k'; simpl; unfold kid_step; rewrite Hk, Hp; auto.
Qed.

Lemma about_dec e k : about e k \/ ~ about e k.
Proof. destruct e as [k'|k' c1]; simpl; destruct (Nat.eq_dec k' k); auto. Qed.

Lemma ended_events es s k : ended s k -> ended (events s es) k.
Proof.
  unfold TrackModel.events. revert s. induction es as [|e es IH]; intros s E; simpl; auto.
  apply IH. destruct (about_dec e k) as [Ab|Ab].
  - rewrite (ended_event _ _ _ E Ab). auto.
  - destruct E as (kid & c0 & Hk & Hp). exists kid, c0. rewrite event_kid_other; auto.
Qed.

Lemma job_settled died s j k d h es :
  text_pickle dl = true -> (died = true \/ survives k es) -> Job died s j k d h -> ended s k ->
  nth_error (dirs (events s es)) d = nth_error (dirs s) d.
Proof.
  intros TP. unfold TrackModel.events. revert s.
  induction es as [|e es IH]; intros s S J E; simpl; auto.
  assert (X : nth_error (dirs (event s e)) d = nth_error (dirs s) d).
  { destruct (about_dec e k) as [Ab|Ab].
    - rewrite (ended_event _ _ _ E Ab). auto.
    - apply event_dir_other. intros k' kid Ab' Hk. apply (j_excl _ _ _ _ _ _ J k'); auto.
      intros ->; auto. }
  rewrite <- X. apply IH.
  - destruct S as [S|S]; auto. right. intros cc Y. apply (S cc). simpl; auto.
  - apply job_event; auto. destruct S as [S|S]; auto. right. intros cc ->. apply (S cc). simpl; auto.
  - apply (ended_events [e]); auto.
Qed.

(** * Reading the value of a job *)

Lemma job_get died s j k d h e1 e2 s' r :
  text_pickle dl = true -> (died = true \/ (survives k e1 /\ survives k e2)) ->
  Job died s j k d h -> get_return_value dl track s j e1 e2 = (s', r) ->
  (r = Exc RuntimeErr \/ (exists v, track h = Some v /\ r = Ret v) \/
   (died = true /\ r = Exc EOFErr)) /\
  (ended s k -> died = false -> forall v, track h = Some v -> r = Ret v).
Proof.
  intros TP S J E. unfold get_return_value in E.
  pose proof (job_is_alive died s j j k d h J) as J1.
  destruct (is_alive s j) as [s1 al] eqn:EA. simpl in J1.
  apply is_alive_spec in EA. destruct EA as (e3 & e4 & e5 & e6 & e7 & e8 & e9 & Ha & Hd & He & Hn).
  destruct (j_proc _ _ _ _ _ _ J) as [ex Gp].
  assert (C : child s j = Some k) by (unfold child; rewrite Gp; auto).
  destruct al.
  { inversion E; subst. split; auto. intros En. destruct (Ha eq_refl) as (k' & Ck & Pk).
    rewrite C in Ck. inversion Ck; subst. destruct (ended_poll _ _ En) as [c Hc]. congruence. }
  destruct (Hd eq_refl _ C) as [c Hc].
  rewrite (He _ _ Gp eq_refl) in E. simpl in E. rewrite Hc in E.
  assert (S1 : died = true \/ survives k e1) by tauto.
  assert (S2 : died = true \/ survives k e2) by tauto.
  pose proof (job_events died s1 j k d h e1 TP S1 J1) as J2.
  pose proof (job_events died _ j k d h e2 TP S2 J2) as J3.
  assert (En1 : ended s1 k).
  { apply poll_ended in Hc. destruct Hc as (kid & c0 & Hk & Hp). exists kid, c0. rewrite e4. auto. }
  pose proof (ended_events e1 _ _ En1) as En2. pose proof (ended_events e2 _ _ En2) as En3.
  destruct (j_kid _ _ _ _ _ _ J2) as (cw2 & ph2 & f2 & K2 & D2 & G2).
  destruct (j_kid _ _ _ _ _ _ J3) as (cw3 & ph3 & f3 & K3 & D3 & G3).
  destruct En2 as (kid2 & c2 & X2 & Y2). rewrite K2 in X2. inversion X2; subst kid2. simpl in Y2. subst ph2.
  destruct En3 as (kid3 & c3 & X3 & Y3). rewrite K3 in X3. inversion X3; subst kid3. simpl in Y3. subst ph3.
  simpl in G2, G3.
  rewrite D2 in E. rewrite D3, TP in E.
  destruct f2 as [f2|].
  - destruct f3 as [[v|]|].
    + inversion E; subst. destruct G3 as [(v' & Et & F)|[(_ & F)|(_ & [F|F])]]; try discriminate.
      inversion F; subst. split; [right; left; eauto|]. intros _ _ v Ev. congruence.
    + inversion E; subst. destruct G3 as [(v' & Et & F)|[(_ & F)|(F0 & F)]]; try discriminate.
      split; auto. intros _ X. congruence.
    + (* the file can not disappear *)
      exfalso. pose proof (job_settled died _ j k d h e2 TP S2 J2 (ended_events e1 _ _ En1)) as X.
      rewrite D2, D3 in X. discriminate.
  - inversion E; subst. split; auto. intros _ Df v Ev.
    destruct G2 as [(v' & Et & F)|[(F0 & F)|(F0 & F)]]; congruence.
Qed.

(** * The calls succeed *)

Lemma child_events s es i : child (events s es) i = child s i.
Proof. unfold child. destruct (events_frame dl track es s) as (-> & _). auto. Qed.
Lemma out_dir_events s es i : out_dir (events s es) i = out_dir s i.
Proof. unfold out_dir. destruct (events_frame dl track es s) as (-> & _). auto. Qed.

Lemma child_new_out_dir (s : SysHT) i j : child (new_out_dir s i) j = child s j.
Proof.
  unfold child, new_out_dir. destruct (nth_error (procs s) i) as [p|] eqn:G; auto. simpl.
  destruct (Nat.eq_dec i j) as [<- | N].
  - rewrite set_at_same, G; auto. eapply some_lt; eauto.
  - rewrite set_at_other; auto.
Qed.

Lemma out_dir_new_out_dir (s : SysHT) i j :
  out_dir (new_out_dir s i) j =
  if Nat.eqb i j then option_map (fun _ => length (dirs s)) (nth_error (procs s) j)
  else out_dir s j.
Proof.
  unfold out_dir, new_out_dir. destruct (nth_error (procs s) i) as [p|] eqn:G; simpl.
  - destruct (Nat.eqb_spec i j) as [<- | N].
    + rewrite set_at_same by (eapply some_lt; eauto). rewrite G. auto.
    + rewrite set_at_other; auto.
  - destruct (Nat.eqb_spec i j) as [<- | N]; auto. rewrite G; auto.
Qed.

Lemma set_hits_procs s i h es j :
  out_dir (fst (set_hit_list dl track s i h es)) j = out_dir s j /\
  child (fst (set_hit_list dl track s i h es)) j = child s j /\
  length (procs (fst (set_hit_list dl track s i h es))) = length (procs s) /\
  length (dirs (fst (set_hit_list dl track s i h es))) = length (dirs s) /\
  length (kids (fst (set_hit_list dl track s i h es))) = length (kids s) /\
  cwd (fst (set_hit_list dl track s i h es)) = cwd s.
Proof.
  unfold set_hit_list. destruct (nth_error (procs s) i) as [p|] eqn:G; [|repeat split; auto].
  set (s1 := set_proc s i _). set (s2 := write_jar s1 (p_dir p) Truncated).
  assert (E : exists s3, s3 = fst (match text_pickle dl with
      | true => match p_child p with
                | Some _ => (events s2 es, Exc TypeErr)
                | None => (write_jar (events s2 es) (p_dir p) (Whole h), Ret tt)
                end
      | false => (events s2 es, @Exc unit TypeErr) end) /\
     procs s3 = procs s1 /\ length (dirs s3) = length (dirs s) /\
     length (kids s3) = length (kids s) /\ cwd s3 = cwd s).
  { eexists. split; [reflexivity|].
    destruct (write_jar_dirs s1 (p_dir p) Truncated) as (e1 & e2 & e3 & e4). fold s2 in e1, e2, e3, e4.
    destruct (events_frame dl track es s2) as (f1 & f2 & f3 & f4).
    destruct (write_jar_dirs (events s2 es) (p_dir p) (Whole h)) as (g1 & g2 & g3 & g4).
    assert (X : dirs s1 = dirs s /\ kids s1 = kids s /\ cwd s1 = cwd s) by (unfold s1; simpl; auto).
    destruct X as (x1 & x2 & x3). rewrite x1 in e4. rewrite x2 in e2. rewrite x3 in e3.
    clearbody s2. clearbody s1. destruct (text_pickle dl), (p_child p); simpl; repeat split; congruence. }
  destruct E as (s3 & -> & Ep & -> & -> & ->).
  unfold out_dir, child. rewrite Ep. unfold s1. simpl. rewrite set_at_length.
  destruct (Nat.eq_dec i j) as [<- | N].
  - rewrite set_at_same by (eapply some_lt; eauto). rewrite G. simpl. auto 6.
  - rewrite set_at_other by auto. auto 6.
Qed.

Lemma set_hits_ret s i h es :
  text_pickle dl = true -> i < length (procs s) -> child s i = None ->
  snd (set_hit_list dl track s i h es) = Ret tt.
Proof.
  intros TP L C. unfold set_hit_list. unfold child in C.
  destruct (nth_error (procs s) i) eqn:G; [|apply nth_error_None in G; lia].
  rewrite TP, C. auto.
Qed.

Lemma start_ret (s : SysHT) i :
  i < length (procs s) -> child s i = None -> snd (start s i true) = Ret tt.
Proof.
  intros L C. unfold start, is_alive. unfold child in C.
  destruct (nth_error (procs s) i) eqn:G; [|apply nth_error_None in G; lia].
  rewrite C, G. auto.
Qed.

(** * One pass of track_many_async *)

Definition any : nat -> list H -> Prop := fun _ _ => True.

Lemma inv_any P s : Inv track P s -> Inv track any s.
Proof. apply Inv_mono. unfold any; auto. Qed.

Lemma pass_spec s job chunk e1 e2 e3 s1 j :
  text_pickle dl = true -> Inv track any s -> copy_process s job = (s1, Ret j) ->
  exists s2 s3,
    set_hit_list dl track (events (new_out_dir s1 j) e1) j chunk e2 = (s2, Ret tt) /\
    start (events s2 e3) j true = (s3, Ret tt) /\
    j = length (procs s) /\
    Job false s3 j (length (kids s)) (length (dirs s)) chunk /\
    Inv track any s3 /\ length (kids s3) = S (length (kids s)) /\
    (forall i, i < length (procs s) -> nth_error (procs s3) i = nth_error (procs s) i) /\
    length (procs s3) = S (length (procs s)) /\
    cwd s3 = cwd s /\
    (forall died j' k' d' h', Job died s j' k' d' h' -> cwd s <> Some d' ->
       (died = true \/ survives k' (e1 ++ e2 ++ e3)) -> Job died s3 j' k' d' h').
Proof.
  intros TP I Ec.
  assert (I1 : Inv track any s1) by (pose proof (copy_inv track any s job I) as X; rewrite Ec in X; auto).
  assert (J1 : forall died j' k' d' h', Job died s j' k' d' h' -> Job died s1 j' k' d' h').
  { intros died j' k' d' h' J. pose proof (job_copy died s job j' k' d' h' J) as X.
    rewrite Ec in X; auto. }
  unfold copy_process in Ec. destruct (nth_error (procs s) job) as [p|] eqn:G; try discriminate.
  destruct (p_child p) as [|] eqn:C; try discriminate.
  assert (E1 : s1 = with_procs s (procs s ++ [p])) by congruence.
  assert (E2 : j = length (procs s)) by congruence. clear Ec.
  assert (Ks : kids s1 = kids s) by (rewrite E1; auto).
  assert (Ds : dirs s1 = dirs s) by (rewrite E1; auto).
  assert (Ps : procs s1 = procs s ++ [p]) by (rewrite E1; auto).
  assert (Ls : length (procs s1) = S (length (procs s))) by (rewrite Ps, app_length; simpl; lia).
  assert (Cj : child s1 j = None).
  { unfold child. rewrite Ps, E2, nth_app_last. auto. }
  assert (Lj : j < length (procs s1)) by lia.
  set (s1' := events (new_out_dir s1 j) e1).
  assert (I1' : Inv track any s1') by (apply events_inv, new_out_dir_inv; auto).
  assert (Cj' : child s1' j = None) by (unfold s1'; rewrite child_events, child_new_out_dir; auto).
  assert (Lj' : j < length (procs s1')).
  { unfold s1'. destruct (events_frame dl track e1 (new_out_dir s1 j)) as (-> & _).
    unfold new_out_dir. destruct (nth_error (procs s1) j); simpl; rewrite ?set_at_length; auto. }
  assert (Oj' : out_dir s1' j = Some (length (dirs s))).
  { unfold s1'. rewrite out_dir_events, out_dir_new_out_dir, Nat.eqb_refl.
    destruct (nth_error (procs s1) j) eqn:X; [simpl; congruence|apply nth_error_None in X; lia]. }
  pose proof (set_hits_ret s1' j chunk e2 TP Lj' Cj') as R2.
  destruct (set_hits_procs s1' j chunk e2 j) as (O2 & C2 & L2 & D2 & K2 & W2).
  pose proof (inv_any _ _ (set_hit_list_inv dl track any s1' j chunk e2 I1')) as I2.
  destruct (set_hit_list dl track s1' j chunk e2) as [s2 r2] eqn:Es2.
  simpl in R2, O2, C2, L2, D2, K2, W2, I2. subst r2.
  set (s2' := events s2 e3).
  assert (I2' : Inv track any s2') by (apply events_inv; auto).
  assert (C2' : child s2' j = None) by (unfold s2'; rewrite child_events; congruence).
  assert (O2' : out_dir s2' j = Some (length (dirs s))) by (unfold s2'; rewrite out_dir_events; congruence).
  assert (L2' : j < length (procs s2')).
  { unfold s2'. destruct (events_frame dl track e3 s2) as (-> & _). lia. }
  assert (W2' : cwd s2' = cwd s).
  { unfold s2'. destruct (events_frame dl track e3 s2) as (_ & -> & _). rewrite W2. unfold s1'.
    destruct (events_frame dl track e1 (new_out_dir s1 j)) as (_ & -> & _).
    unfold new_out_dir. destruct (nth_error (procs s1) j); simpl; rewrite E1; auto. }
  pose proof (start_ret s2' j L2' C2') as R3.
  pose proof (start_inv track any s2' j true I2') as I3.
  destruct (start s2' j true) as [s3 r3] eqn:Es3. simpl in R3, I3. subst r3.
  exists s2, s3. split; auto. split; auto. split; auto.
  destruct (make_job any s1 j e1 chunk e2 e3 s2 s3 TP I1 Lj Cj Es2 Es3)
    as (Jb & K3 & D3 & W3 & L3 & N3).
  rewrite Ks in Jb, K3. rewrite Ds in Jb.
  split; auto. split; auto. split; auto.
  split. { intros i Hi. rewrite N3 by lia. rewrite Ps, nth_error_app1; auto. }
  split; [lia|].
  split. { rewrite W3, E1. auto. }
  intros died j' k' d' h' J Cw S.
  assert (Hd : d' < length (dirs s)) by (eapply job_lt; eauto).
  assert (Nj : j <> j').
  { destruct (j_proc _ _ _ _ _ _ J) as [e X]. apply some_lt in X. lia. }
  assert (Sv : forall a b, survives k' (a ++ b) -> survives k' a /\ survives k' b).
  { intros a b X. split; intros c Y; apply (X c); apply in_or_app; auto. }
  assert (S1 : (died = true \/ survives k' e1) /\ (died = true \/ survives k' e2) /\
               (died = true \/ survives k' e3)).
  { destruct S as [S|S]; auto. apply Sv in S. destruct S as [S1 S]. apply Sv in S. tauto. }
  destruct S1 as (S1 & S2 & S3).
  assert (A1 : Job died s1' j' k' d' h').
  { unfold s1'. apply job_events; auto. eapply job_new_dir; eauto. }
  assert (A2 : Job died s2 j' k' d' h').
  { pose proof (job_set_hits died s1' j j' k' d' h' chunk e2 TP Nj) as X. rewrite Es2 in X.
    apply X; auto. rewrite Oj'. intros Y. inversion Y. lia. }
  assert (A3 : Job died s2' j' k' d' h') by (apply job_events; auto).
  pose proof (job_start died s2' j j' k' d' h' true Nj) as X. rewrite Es3 in X. apply X; auto.
  - rewrite O2'. intros Y. inversion Y. lia.
  - rewrite W2'. auto.
Qed.

(** * The chunks *)

Fixpoint chunks (n q : nat) (rem : Z) (hits : list H) : list (list H) :=
  match n with
  | O => []
  | S n' => let '(c, rest, rem') := next_chunk q rem hits in c :: chunks n' q rem' rest
  end.

Lemma chunks_concat n q : forall rem hits,
  (0 <= rem <= Z.of_nat n)%Z ->
  Z.of_nat (length hits) = (Z.of_nat n * Z.of_nat q + rem)%Z ->
  concat (chunks n q rem hits) = hits.
Proof.
  induction n as [|n IH]; intros rem hits R L; simpl.
  - destruct hits; auto. simpl in L. lia.
  - unfold next_chunk. destruct (Z.ltb_spec 0 rem); cbv beta iota; cbn [concat];
      rewrite IH; auto using firstn_skipn; try lia;
      rewrite skipn_length; nia.
Qed.

Lemma chunks_length n q : forall rem hits, length (chunks n q rem hits) = n.
Proof.
  induction n as [|n IH]; intros rem hits; simpl; auto.
  destruct (next_chunk q rem hits) as [[c rest] rem']. simpl. rewrite IH; auto.
Qed.

Lemma chunks_sizes n q : forall rem hits c,
  (0 <= rem <= Z.of_nat n)%Z ->
  Z.of_nat (length hits) = (Z.of_nat n * Z.of_nat q + rem)%Z ->
  In c (chunks n q rem hits) -> length c = q \/ length c = S q.
Proof.
  induction n as [|n IH]; intros rem hits c R L; simpl; [tauto|].
  unfold next_chunk. destruct (Z.ltb_spec 0 rem) as [Hr|Hr]; cbv beta iota; intros [<- | X].
  - right. rewrite firstn_length. nia.
  - eapply IH; [| |exact X]; [lia|]. rewrite skipn_length. nia.
  - left. rewrite firstn_length. nia.
  - eapply IH; [| |exact X]; [lia|]. rewrite skipn_length. nia.
Qed.

(** * The loop of track_many_async *)

Definition JobRec : Type := nat * nat * nat * list H.
Definition jj (x : JobRec) : nat := fst (fst (fst x)).
Definition jk (x : JobRec) : nat := snd (fst (fst x)).
Definition jd (x : JobRec) : nat := snd (fst x).
Definition jh (x : JobRec) : list H := snd x.
Definition JobX (died : bool) (s : SysHT) (x : JobRec) : Prop := Job died s (jj x) (jk x) (jd x) (jh x).

Lemma job_weaken died s j k d h : Job false s j k d h -> Job died s j k d h.
Proof.
  intros [A (cw & ph & f & K & D & G) C]. constructor; auto. exists cw, ph, f.
  split; auto. split; auto. destruct ph; simpl in *; auto.
  destruct G as [G|[G|(? & _)]]; auto; discriminate.
Qed.

Lemma calm_survives k a : calm a -> survives k a.
Proof. intros X c. apply X. Qed.

Lemma calm_app a b : calm a -> calm b -> calm (a ++ b).
Proof. intros X Y k c Z. apply in_app_or in Z. destruct Z; [eapply X|eapply Y]; eauto. Qed.

Lemma start_jobs_spec n : forall q rem hits sched s job jobs,
  text_pickle dl = true -> Inv track any s -> job < length (procs s) -> child s job = None ->
  (forall x, In x sched -> snd x = true) ->
  exists s' l, start_jobs dl track n q rem hits sched s job jobs = (s', jobs ++ map jj l, Ret tt) /\
    map jh l = chunks n q rem hits /\ Inv track any s' /\
    map jk l = seq (length (kids s)) n /\
    length (kids s') = length (kids s) + n /\
    (forall died, died = true \/ Forall calm_pass sched -> Forall (JobX died s') l) /\
    (forall died j' k' d' h', Job died s j' k' d' h' -> cwd s <> Some d' ->
       died = true \/ Forall calm_pass sched -> Job died s' j' k' d' h').
Proof.
  induction n as [|n IH]; intros q rem hits sched s job jobs TP I L C Sf.
  { simpl. exists s, []. rewrite app_nil_r, Nat.add_0_r. simpl. auto 10. }
  cbn [start_jobs chunks]. destruct (next_chunk q rem hits) as [[chunk rest] rem'].
  destruct (hd ([], [], [], true) sched) as [[[e1 e2] e3] found] eqn:Eh.
  assert (Ef : found = true).
  { destruct sched as [|x sched]; simpl in Eh; [congruence|]. subst x.
    apply (Sf (e1, e2, e3, found)). simpl; auto. }
  assert (Ecalm : Forall calm_pass sched -> calm (e1 ++ e2 ++ e3) /\ Forall calm_pass (tl sched)).
  { destruct sched as [|x sched]; simpl in Eh.
    - inversion Eh; subst. split; auto. intros k c X. destruct X.
    - subst x. intros F. inversion F; subst. destruct H2 as (a & b & c). simpl in *.
      split; auto. apply calm_app; auto. apply calm_app; auto. }
  assert (Ec : exists s1, copy_process s job = (s1, Ret (length (procs s)))).
  { unfold copy_process. unfold child in C.
    destruct (nth_error (procs s) job) eqn:G; [|apply nth_error_None in G; lia].
    rewrite C. eauto. }
  destruct Ec as [s1 Ec]. rewrite Ec.
  destruct (pass_spec s job chunk e1 e2 e3 s1 _ TP I Ec)
    as (s2 & s3 & E2 & E3 & _ & Jb & I3 & K3 & N3 & L3 & W3 & Keep).
  rewrite E2, Ef, E3.
  assert (C3 : child s3 job = None) by (unfold child; rewrite N3; auto).
  destruct (IH q rem' rest (tl sched) s3 job (jobs ++ [length (procs s)]) TP I3)
    as (s' & l & E & Hh & I' & Hk & Lk & Hj & Keep'); auto; try lia.
  { intros x X. apply Sf. destruct sched; simpl in *; auto. }
  exists s', ((length (procs s), length (kids s), length (dirs s), chunk) :: l).
  rewrite <- app_assoc in E. split; [exact E|]. split; [simpl; rewrite Hh; auto|]. split; auto.
  split. { simpl. rewrite Hk, K3. auto. }
  split; [lia|].
  assert (Wd : cwd s3 <> Some (length (dirs s))).
  { rewrite W3. intros X. pose proof (i_cwd _ _ _ I _ X). lia. }
  split.
  - intros died Hc. constructor.
    + unfold JobX, jj, jk, jd, jh. simpl. apply Keep'; auto.
      * apply job_weaken; auto.
      * destruct Hc as [Hc|Hc]; auto. right. apply Ecalm; auto.
    + apply Hj. destruct Hc as [Hc|Hc]; auto. right. apply Ecalm; auto.
  - intros died j' k' d' h' J Cw Hc. apply Keep'; [| |].
    + apply Keep; auto. destruct Hc as [Hc|Hc]; auto. right. apply calm_survives, Ecalm; auto.
    + rewrite W3; auto.
    + destruct Hc as [Hc|Hc]; auto. right. apply Ecalm; auto.
Qed.

(** * Waiting *)

Lemma jobs_events died s es l :
  text_pickle dl = true -> died = true \/ calm es -> Forall (JobX died s) l ->
  Forall (JobX died (events s es)) l.
Proof.
  intros TP C F. eapply Forall_impl; [|exact F]. intros x J. apply job_events; auto.
  destruct C as [C|C]; auto. right. apply calm_survives; auto.
Qed.

Lemma jobs_is_alive died s i l :
  Forall (JobX died s) l -> Forall (JobX died (fst (is_alive s i))) l.
Proof. intros F. eapply Forall_impl; [|exact F]. intros x J. apply job_is_alive; auto. Qed.

Lemma calm_concat l : Forall calm l -> calm (concat l).
Proof.
  induction 1; simpl; [intros k c X; destruct X|apply calm_app; auto].
Qed.

Lemma calm_hd (l : list (list Event)) : Forall calm l -> calm (hd [] l).
Proof. destruct 1; simpl; auto. intros k c X; destruct X. Qed.
Lemma Forall_tl {A} (Q : A -> Prop) l : Forall Q l -> Forall Q (tl l).
Proof. destruct 1; simpl; auto. Qed.

Lemma poll_jobs_jobs died jobs : forall sched s l,
  text_pickle dl = true -> died = true \/ Forall calm sched -> Forall (JobX died s) l ->
  Forall (JobX died (fst (poll_jobs dl track jobs sched s))) l.
Proof.
  induction jobs as [|j jobs IH]; intros sched s l TP C F; cbn [poll_jobs].
  - simpl. apply jobs_events; auto. destruct C as [C|C]; auto. right. apply calm_concat; auto.
  - pose proof (jobs_is_alive died s j l F) as F1. destruct (is_alive s j) as [s1 al]. simpl in F1.
    specialize (IH (tl sched) (events s1 (hd [] sched)) l TP).
    destruct (poll_jobs dl track jobs (tl sched) (events s1 (hd [] sched))) as [s2 r]. simpl in *.
    apply IH.
    + destruct C as [C|C]; auto. right. apply Forall_tl; auto.
    + apply jobs_events; auto. destruct C as [C|C]; auto. right. apply calm_hd; auto.
Qed.

Lemma wait_jobs_jobs died rounds : forall jobs s l,
  text_pickle dl = true -> died = true \/ Forall (Forall calm) rounds -> Forall (JobX died s) l ->
  Forall (JobX died (fst (wait_jobs dl track rounds jobs s))) l.
Proof.
  induction rounds as [|r rounds IH]; intros jobs s l TP C F; destruct jobs as [|j jobs]; simpl; auto.
  assert (F1 := poll_jobs_jobs died (j :: jobs) r s l TP).
  cbn [poll_jobs] in F1. destruct (is_alive s j) as [s1 al].
  destruct (poll_jobs dl track jobs (tl r) (events s1 (hd [] r))) as [s2 lst]. simpl in F1.
  apply IH; auto.
  - destruct C as [C|C]; auto. inversion C; auto.
  - apply F1; auto. destruct C as [C|C]; auto. inversion C; auto.
Qed.

(** Jobs that are no longer listed have ended. *)
Lemma child_is_alive (s : SysHT) i j : child (fst (is_alive s i)) j = child s j.
Proof.
  destruct (is_alive s i) as [s1 al] eqn:E. apply is_alive_spec in E. simpl. apply E.
Qed.
Lemma kids_is_alive (s : SysHT) i : kids (fst (is_alive s i)) = kids s.
Proof.
  destruct (is_alive s i) as [s1 al] eqn:E. apply is_alive_spec in E. simpl. apply E.
Qed.
Lemma ended_is_alive (s : SysHT) i k : ended (fst (is_alive s i)) k <-> ended s k.
Proof. unfold ended. rewrite kids_is_alive. tauto. Qed.

Lemma poll_jobs_mono jobs : forall sched s,
  (forall k, ended s k -> ended (fst (poll_jobs dl track jobs sched s)) k) /\
  (forall j, child (fst (poll_jobs dl track jobs sched s)) j = child s j) /\
  (forall j k, In j jobs -> child s j = Some k ->
     In j (snd (poll_jobs dl track jobs sched s)) \/
     ended (fst (poll_jobs dl track jobs sched s)) k) /\
  (forall j, In j (snd (poll_jobs dl track jobs sched s)) -> In j jobs).
Proof.
  induction jobs as [|j jobs IH]; intros sched s; cbn [poll_jobs].
  - simpl. split; [intros; apply ended_events; auto|]. split; [intros; apply child_events|].
    split; tauto.
  - pose proof (fun i => child_is_alive s j i) as A. pose proof (fun k => ended_is_alive s j k) as B.
    destruct (is_alive s j) as [s1 al] eqn:Ea. simpl in A, B.
    destruct (IH (tl sched) (events s1 (hd [] sched))) as (I1 & I2 & I3 & I4).
    destruct (poll_jobs dl track jobs (tl sched) (events s1 (hd [] sched))) as [s2 l].
    simpl in *.
    assert (Mono : forall k, ended s k -> ended s2 k)
      by (intros k X; apply I1, ended_events, B; auto).
    split; auto. split. { intros i. rewrite I2, child_events. auto. }
    split.
    + intros i k [-> | X] Ck.
      * destruct al; [left; simpl; auto|]. right. apply Mono.
        apply is_alive_spec in Ea. destruct Ea as (_ & _ & _ & _ & _ & _ & _ & _ & Hd & _).
        destruct (Hd eq_refl _ Ck) as [c Hc]. eapply poll_ended; eauto.
      * destruct (I3 i k X) as [Y|Y]; auto.
        { rewrite child_events, A; auto. }
        left. destruct al; simpl; auto.
    + intros i X. destruct al; simpl in X; [destruct X; auto|]; auto.
Qed.

Lemma wait_jobs_ended rounds : forall jobs s s2,
  wait_jobs dl track rounds jobs s = (s2, true) ->
  (forall k, ended s k -> ended s2 k) /\
  (forall j k, In j jobs -> child s j = Some k -> ended s2 k).
Proof.
  induction rounds as [|r rounds IH]; intros jobs s s2 E; destruct jobs as [|j jobs];
    cbn [wait_jobs] in E.
  - inversion E; subst; split; auto. intros j k [].
  - inversion E.
  - inversion E; subst; split; auto. intros j k [].
  - destruct (poll_jobs_mono (j :: jobs) r s) as (M1 & M2 & M3 & M4).
    destruct (poll_jobs dl track (j :: jobs) r s) as [s1 l]. simpl fst in *. simpl snd in *.
    destruct (IH _ _ _ E) as (A & B). split; auto.
    intros i k X Ck. destruct (M3 i k X Ck) as [Y|Y]; auto.
    apply (B i k); auto. rewrite M2; auto.
Qed.

(** * Collecting *)

Lemma ended_get s i e1 e2 k : ended s k -> ended (fst (get_return_value dl track s i e1 e2)) k.
Proof.
  intros E. unfold get_return_value. pose proof (ended_is_alive s i k) as B.
  destruct (is_alive s i) as [s1 al]. simpl in B. apply B in E.
  destruct al; auto. destruct (nth_error (procs s1) i) as [p|]; auto. destruct (p_exit p); auto.
  assert (E1 : ended (events s1 e1) k) by (apply ended_events; auto).
  assert (E2 : ended (events (events s1 e1) e2) k) by (apply ended_events; auto).
  destruct (nth_error (dirs (events s1 e1)) (p_dir p)) as [[jr [sw|]]|]; auto.
  destruct (nth_error (dirs (events (events s1 e1) e2)) (p_dir p)) as [[jr' [[v|]|]]|]; auto.
  destruct (text_pickle dl); auto.
Qed.

Lemma jobs_get died s i e1 e2 l :
  text_pickle dl = true -> died = true \/ (calm e1 /\ calm e2) -> Forall (JobX died s) l ->
  Forall (JobX died (fst (get_return_value dl track s i e1 e2))) l.
Proof.
  intros TP C F. unfold get_return_value. pose proof (jobs_is_alive died s i l F) as F1.
  destruct (is_alive s i) as [s1 al]. simpl in F1.
  destruct al; auto. destruct (nth_error (procs s1) i) as [p|]; auto. destruct (p_exit p); auto.
  assert (E1 : Forall (JobX died (events s1 e1)) l) by (apply jobs_events; tauto).
  assert (E2 : Forall (JobX died (events (events s1 e1) e2)) l) by (apply jobs_events; tauto).
  destruct (nth_error (dirs (events s1 e1)) (p_dir p)) as [[jr [sw|]]|]; auto.
  destruct (nth_error (dirs (events (events s1 e1) e2)) (p_dir p)) as [[jr' [[v|]|]]|]; auto.
  destruct (text_pickle dl); auto.
Qed.

Lemma collect_spec died l : forall csched s last s' r,
  text_pickle dl = true -> died = true \/ Forall calm_pair csched -> Forall (JobX died s) l ->
  collect dl track (map jj l) csched s last = (s', r) ->
  ((died = true /\ r = Exc EOFErr) \/
   exists v, selected track (map jh l) v /\ r = Ret (last ++ v)) /\
  (died = false -> (forall x, In x l -> ended s (jk x)) ->
     (forall x, In x l -> track (jh x) <> None) ->
     exists vs, Forall2 (fun h v => track h = Some v) (map jh l) vs /\ r = Ret (last ++ concat vs)).
Proof.
  induction l as [|x l IH]; intros csched s last s' r TP C F E; cbn [map collect] in E.
  - inversion E; subst. split.
    + right. exists []. split; [constructor|]. rewrite app_nil_r; auto.
    + intros. exists []. split; [constructor|]. simpl. rewrite app_nil_r; auto.
  - destruct (hd ([], []) csched) as [e1 e2] eqn:Eh.
    assert (C1 : died = true \/ (calm e1 /\ calm e2)).
    { destruct C as [C|C]; auto. right. destruct csched; simpl in Eh.
      - inversion Eh; subst. split; intros k c X; destruct X.
      - subst. inversion C; subst. auto. }
    assert (C2 : died = true \/ Forall calm_pair (tl csched)).
    { destruct C as [C|C]; auto. right. apply Forall_tl; auto. }
    inversion F as [|? ? Jx Fl]; subst.
    pose proof (jobs_get died s (jj x) e1 e2 l TP C1 Fl) as F1.
    pose proof (fun k => ended_get s (jj x) e1 e2 k) as En.
    assert (S1 : died = true \/ (survives (jk x) e1 /\ survives (jk x) e2)).
    { destruct C1 as [C1|[A B]]; auto. right. split; apply calm_survives; auto. }
    destruct (get_return_value dl track s (jj x) e1 e2) as [s1 r1] eqn:Eg. simpl in F1, En.
    destruct (job_get died s (jj x) (jk x) (jd x) (jh x) e1 e2 s1 r1 TP S1 Jx Eg) as [G1 G2].
    destruct G1 as [-> | [(v & Ev & ->)|(Dd & ->)]].
    + destruct (IH _ _ _ _ _ TP C2 F1 E) as [A B]. split.
      * destruct A as [A|(v & S & ->)]; auto. right. exists v. split; auto. constructor; auto.
      * intros Df En' Nn. exfalso. destruct (track (jh x)) as [v|] eqn:Et.
        -- specialize (G2 (En' x (or_introl eq_refl)) Df v eq_refl). discriminate.
        -- apply (Nn x); simpl; auto.
    + destruct (IH _ _ _ _ _ TP C2 F1 E) as [A B]. split.
      * destruct A as [A|(v' & S & ->)]; auto. right. exists (v ++ v').
        split; [constructor; auto|]. rewrite app_assoc; auto.
      * intros Df En' Nn. destruct B as (vs & V & ->); auto.
        { intros y Y. apply En, En'. simpl; auto. }
        { intros y Y. apply Nn. simpl; auto. }
        exists (v :: vs). split; [constructor; auto|]. simpl. rewrite app_assoc. auto.
    + inversion E; subst. split; auto. intros; discriminate.
Qed.

(** * Progress *)

Definition rank_of (ph : @Phase H T) : nat :=
  match ph with
  | Boot => 6 | Loaded _ => 5 | Cleared _ => 4 | Computed _ => 3
  | Writing _ => 2 | Written => 1 | Exited _ => 0
  end.
Definition rank (s : SysHT) (k : nat) : nat :=
  match nth_error (kids s) k with Some kid => rank_of (k_phase kid) | None => 0 end.

Lemma rank_event s e k : rank (event s e) k <= rank s k - moves k [e].
Proof.
  unfold rank, moves. destruct (about_dec e k) as [Ab|Ab].
  2:{ rewrite event_kid_other by auto. destruct e as [k'|k' c]; simpl in *; try lia.
      destruct (Nat.eqb_spec k' k); [contradiction|simpl; lia]. }
  destruct (nth_error (kids s) k) as [kid|] eqn:G.
  2:{ destruct (nth_error (kids (event s e)) k) as [kid|] eqn:G'; [|simpl; lia].
      apply event_kids in G'. destruct G' as (kid0 & X & _). congruence. }
  assert (Kl : k < length (kids s)) by (eapply some_lt; eauto).
  assert (W : forall d f, kids (write_sandwich s d f) = kids s)
    by (intros; apply write_sandwich_dirs).
  destruct e as [k'|k' c]; simpl in Ab; subst k'.
  - simpl. rewrite Nat.eqb_refl. simpl. unfold kid_step. rewrite G.
    destruct (k_phase kid) eqn:Ep; simpl.
    + destruct (nth_error (dirs s) (k_dir kid)) as [[[[h|]|] sw]|]; try destruct (text_pickle dl);
        simpl; rewrite set_at_same by auto; simpl; lia.
    + destruct (k_cwd kid); simpl; rewrite ?W, set_at_same by auto; simpl; lia.
    + destruct (track h); simpl; rewrite set_at_same by auto; simpl; lia.
    + rewrite W, set_at_same by auto; simpl; lia.
    + destruct (text_pickle dl); simpl; rewrite ?W, set_at_same by auto; simpl; lia.
    + rewrite set_at_same by auto; simpl; lia.
    + rewrite G, Ep. simpl; lia.
  - simpl. rewrite G. destruct (k_phase kid) eqn:Ep; simpl; rewrite ?set_at_same by auto; simpl; try lia.
    rewrite G, Ep. simpl; lia.
Qed.

Lemma moves_app k a b : moves k (a ++ b) = moves k a + moves k b.
Proof. unfold moves. rewrite filter_app, app_length. auto. Qed.

Lemma rank_events es : forall s k, rank (events s es) k <= rank s k - moves k es.
Proof.
  unfold TrackModel.events. induction es as [|e es IH]; intros s k; simpl.
  - unfold moves; simpl; lia.
  - change (e :: es) with ([e] ++ es). rewrite moves_app.
    specialize (IH (event s e) k). pose proof (rank_event s e k). lia.
Qed.

Lemma rank_is_alive s i k : rank (fst (is_alive s i)) k = rank s k.
Proof. unfold rank. rewrite kids_is_alive. auto. Qed.

Lemma rank_poll jobs : forall sched s k,
  rank (fst (poll_jobs dl track jobs sched s)) k <= rank s k - moves k (concat sched).
Proof.
  induction jobs as [|j jobs IH]; intros sched s k; cbn [poll_jobs].
  - apply rank_events.
  - pose proof (rank_is_alive s j k) as A. destruct (is_alive s j) as [s1 al]. simpl in A.
    specialize (IH (tl sched) (events s1 (hd [] sched)) k).
    destruct (poll_jobs dl track jobs (tl sched) (events s1 (hd [] sched))) as [s2 l].
    simpl fst in *. pose proof (rank_events (hd [] sched) s1 k).
    destruct sched as [|a sched]; simpl in *; [unfold moves in *; simpl in *; lia|].
    rewrite moves_app. lia.
Qed.

Lemma rank0_ended (s : SysHT) k : k < length (kids s) -> rank s k = 0 -> ended s k.
Proof.
  unfold rank, ended. destruct (nth_error (kids s) k) as [kid|] eqn:G.
  - intros _. destruct (k_phase kid) eqn:E; simpl; try discriminate. eauto.
  - intros L. apply nth_error_None in G. lia.
Qed.

Lemma poll_ended_nil jobs : forall sched s,
  (forall j, In j jobs -> exists k, child s j = Some k /\ ended s k) ->
  snd (poll_jobs dl track jobs sched s) = [].
Proof.
  induction jobs as [|j jobs IH]; intros sched s X; cbn [poll_jobs]; auto.
  pose proof (fun i => child_is_alive s j i) as A. pose proof (fun k => ended_is_alive s j k) as B.
  destruct (is_alive s j) as [s1 al] eqn:Ea. simpl in A, B.
  specialize (IH (tl sched) (events s1 (hd [] sched))).
  destruct (poll_jobs dl track jobs (tl sched) (events s1 (hd [] sched))) as [s2 l]. simpl in *.
  rewrite IH.
  - destruct al; auto. apply is_alive_spec in Ea.
    destruct Ea as (_ & _ & _ & _ & _ & _ & _ & Ht & _).
    destruct (Ht eq_refl) as (k & Ck & Pk). destruct (X j (or_introl eq_refl)) as (k' & Ck' & Ek).
    rewrite Ck in Ck'. inversion Ck'; subst. destruct (ended_poll _ _ Ek) as [c Hc]. congruence.
  - intros i Hi. destruct (X i (or_intror Hi)) as (k & Ck & Ek). exists k.
    rewrite child_events, A. split; auto. apply ended_events, B; auto.
Qed.

Lemma poll_jobs_kids jobs : forall sched s,
  length (kids (fst (poll_jobs dl track jobs sched s))) = length (kids s).
Proof.
  induction jobs as [|j jobs IH]; intros sched s; cbn [poll_jobs].
  - apply events_frame.
  - pose proof (kids_is_alive s j) as A. destruct (is_alive s j) as [s1 al]. simpl in A.
    specialize (IH (tl sched) (events s1 (hd [] sched))).
    destruct (poll_jobs dl track jobs (tl sched) (events s1 (hd [] sched))) as [s2 l].
    simpl fst in *. rewrite IH.
    destruct (events_frame dl track (hd [] sched) s1) as (_ & _ & _ & ->). congruence.
Qed.

Lemma wait_returns rounds last : forall jobs s,
  (forall j, In j jobs -> exists k, child s j = Some k /\ k < length (kids s) /\
     rank s k <= moves k (concat (concat rounds))) ->
  snd (wait_jobs dl track (rounds ++ [last]) jobs s) = true.
Proof.
  induction rounds as [|r rounds IH]; intros jobs s X; destruct jobs as [|j jobs]; auto.
  - cbn [app wait_jobs]. assert (Y := poll_ended_nil (j :: jobs) last s).
    destruct (poll_jobs dl track (j :: jobs) last s) as [s1 l]. simpl in Y. rewrite Y; auto.
    intros i Hi. destruct (X i Hi) as (k & Ck & Lk & Rk). exists k. split; auto.
    apply rank0_ended; auto. unfold moves in Rk. simpl in Rk. lia.
  - cbn [app wait_jobs].
    destruct (poll_jobs_mono (j :: jobs) r s) as (M1 & M2 & M3 & M4).
    pose proof (fun k => rank_poll (j :: jobs) r s k) as M5.
    pose proof (poll_jobs_kids (j :: jobs) r s) as M6.
    destruct (poll_jobs dl track (j :: jobs) r s) as [s1 l]. simpl fst in *. simpl snd in *.
    apply IH. intros i Hi. destruct (X i (M4 _ Hi)) as (k & Ck & Lk & Rk). exists k.
    split; [rewrite M2; auto|]. split; [lia|]. specialize (M5 k).
    simpl in Rk. rewrite concat_app, moves_app in Rk. lia.
Qed.

(** * Directories only grow, and belong to their object until the next new_out_dir *)

Lemma is_alive_frame (s : SysHT) i j :
  out_dir (fst (is_alive s i)) j = out_dir s j /\ dirs (fst (is_alive s i)) = dirs s /\
  length (procs (fst (is_alive s i))) = length (procs s).
Proof.
  destruct (is_alive s i) as [s1 al] eqn:E. apply is_alive_spec in E. simpl.
  destruct E as (? & _ & _ & ? & _ & _ & ? & _). auto.
Qed.

Lemma events_same s es j :
  out_dir (events s es) j = out_dir s j /\ length (dirs (events s es)) = length (dirs s) /\
  length (procs (events s es)) = length (procs s).
Proof.
  split; [apply out_dir_events|]. destruct (events_frame dl track es s) as (-> & _ & -> & _). auto.
Qed.

Definition same (s s' : SysHT) : Prop :=
  (forall j, out_dir s' j = out_dir s j) /\ length (dirs s') = length (dirs s) /\
  length (procs s') = length (procs s).

Lemma same_refl s : same s s.
Proof. split; auto. Qed.
Lemma same_trans a b c : same a b -> same b c -> same a c.
Proof.
  intros (A & B & C) (D & E & F). split; [intros j; rewrite D; auto|]. split; congruence.
Qed.
Lemma same_is_alive s i : same s (fst (is_alive s i)).
Proof.
  split; [intros j; apply is_alive_frame|]. destruct (is_alive_frame s i 0) as (_ & -> & ->). auto.
Qed.
Lemma same_events s es : same s (events s es).
Proof. split; [intros j; apply events_same|]. apply (events_same s es 0). Qed.

Lemma same_join r : forall l s i, same s (fst (join dl track r l s i)).
Proof.
  induction r as [|es r IH]; intros l s i; simpl; pose proof (same_is_alive s i) as A;
    destruct (is_alive s i) as [s1 al]; simpl in A; destruct (al && _); auto.
  eapply same_trans; [exact A|]. eapply same_trans; [apply same_events|]. apply IH.
Qed.

Lemma same_kill r l s i : same s (fst (kill dl track r l s i)).
Proof.
  unfold kill. destruct (nth_error (procs s) i) as [p|]; [|apply same_refl].
  destruct (p_child p); [|apply same_refl].
  pose proof (same_join r l s i) as A. destruct (join dl track r l s i) as [s1 b]. simpl in A.
  destruct b; auto. simpl. eapply same_trans; [exact A|]. apply same_is_alive.
Qed.

Lemma same_get s i e1 e2 : same s (fst (get_return_value dl track s i e1 e2)).
Proof.
  unfold get_return_value. pose proof (same_is_alive s i) as A.
  destruct (is_alive s i) as [s1 al]. simpl in A. destruct al; auto.
  destruct (nth_error (procs s1) i) as [p|]; auto. destruct (p_exit p); auto.
  assert (B : same s (events s1 e1)) by (eapply same_trans; [exact A|apply same_events]).
  assert (C : same s (events (events s1 e1) e2)) by (eapply same_trans; [exact B|apply same_events]).
  destruct (nth_error (dirs (events s1 e1)) (p_dir p)) as [[jr [sw|]]|]; auto.
  destruct (nth_error (dirs (events (events s1 e1) e2)) (p_dir p)) as [[jr' [[v|]|]]|]; auto.
  destruct (text_pickle dl); auto.
Qed.

Lemma same_start s i f : same s (fst (start s i f)).
Proof.
  unfold start. pose proof (same_is_alive s i) as A. destruct (is_alive s i) as [s1 al]. simpl in A.
  destruct al; auto. destruct (nth_error (procs s1) i) as [p|] eqn:G; auto. destruct f; auto.
  eapply same_trans; [exact A|]. split; [|simpl; rewrite set_at_length; auto].
  intros j. unfold out_dir. simpl. destruct (Nat.eq_dec i j) as [<- | N].
  - rewrite set_at_same, G; auto. eapply some_lt; eauto.
  - rewrite set_at_other; auto.
Qed.

Lemma same_set_hits s i h es : same s (fst (set_hit_list dl track s i h es)).
Proof.
  split; [intros j; apply (set_hits_procs s i h es j)|].
  destruct (set_hits_procs s i h es 0) as (_ & _ & A & B & _). auto.
Qed.

Lemma call_dir s c i :
  i < length (procs s) -> c <> NewOutDir i ->
  out_dir (call dl track s c) i = out_dir s i /\ length (dirs s) <= length (dirs (call dl track s c)) /\
  length (procs s) <= length (procs (call dl track s c)).
Proof.
  intros L N.
  assert (Sm : forall s', same s s' -> out_dir s' i = out_dir s i /\
     length (dirs s) <= length (dirs s') /\ length (procs s) <= length (procs s'))
    by (intros s' (A & -> & ->); split; auto).
  destruct c; cbn [call].
  - rewrite new_process_eq. unfold out_dir. simpl. rewrite nth_error_app1 by auto.
    rewrite !app_length. split; auto. lia.
  - unfold copy_process. destruct (nth_error (procs s) i0) as [p|]; [|apply Sm, same_refl].
    destruct (p_child p); [apply Sm, same_refl|]. unfold out_dir. simpl.
    rewrite nth_error_app1 by auto. rewrite app_length. split; auto. lia.
  - rewrite out_dir_new_out_dir. destruct (Nat.eqb_spec i0 i) as [-> | ?]; [congruence|].
    split; auto. unfold new_out_dir. destruct (nth_error (procs s) i0); auto. simpl.
    rewrite app_length, set_at_length. lia.
  - apply Sm, same_set_hits.
  - apply Sm, same_start.
  - apply Sm, same_is_alive.
  - apply Sm, same_join.
  - apply Sm, same_kill.
  - apply Sm, same_get.
  - destruct d as [d|]; [destruct (Nat.ltb d (length (dirs s)))|]; apply Sm; split; auto.
  - apply Sm, same_events.
Qed.

Lemma calls_dir p2 : forall p1 i,
  i < length (procs (calls dl track p1)) -> keeps_dir p2 i ->
  out_dir (calls dl track (p1 ++ p2)) i = out_dir (calls dl track p1) i /\
  length (dirs (calls dl track p1)) <= length (dirs (calls dl track (p1 ++ p2))) /\
  i < length (procs (calls dl track (p1 ++ p2))).
Proof.
  induction p2 as [|c p2 IH] using rev_ind; intros p1 i L K.
  - rewrite app_nil_r. auto.
  - rewrite app_assoc, calls_snoc.
    destruct (IH p1 i L) as (A & B & C).
    { intros X. apply K, in_or_app; auto. }
    destruct (call_dir (calls dl track (p1 ++ p2)) c i) as (D & E & F); auto.
    { intros ->. apply K, in_or_app. simpl; auto. }
    rewrite D. split; auto. lia.
Qed.

Lemma calls_dirs_grow p2 : forall p1,
  length (dirs (calls dl track p1)) <= length (dirs (calls dl track (p1 ++ p2))).
Proof.
  induction p2 as [|c p2 IH] using rev_ind; intros p1.
  - rewrite app_nil_r. auto.
  - rewrite app_assoc, calls_snoc. specialize (IH p1).
    assert (X : length (dirs (calls dl track (p1 ++ p2))) <=
                length (dirs (call dl track (calls dl track (p1 ++ p2)) c))); [|lia].
    set (s := calls dl track (p1 ++ p2)).
    assert (Sm : forall s', same s s' -> length (dirs s) <= length (dirs s'))
      by (intros s' (A & -> & _); auto).
    destruct c; cbn [call].
    + rewrite new_process_eq. simpl. rewrite app_length. lia.
    + unfold copy_process. destruct (nth_error (procs s) i) as [q|]; auto. destruct (p_child q); auto.
    + unfold new_out_dir. destruct (nth_error (procs s) i); auto. simpl. rewrite app_length. lia.
    + apply Sm, same_set_hits.
    + apply Sm, same_start.
    + apply Sm, same_is_alive.
    + apply Sm, same_join.
    + apply Sm, same_kill.
    + apply Sm, same_get.
    + destruct d as [d|]; [destruct (Nat.ltb d (length (dirs s)))|]; auto.
    + apply Sm, same_events.
Qed.

(** A list set in the directory of [new_out_dir] was set after it. *)
Lemma set_in_after p0 p1 i d h :
  i < length (procs (calls dl track p0)) -> keeps_dir p1 i ->
  out_dir (calls dl track (p0 ++ NewOutDir i :: p1)) i = Some d ->
  set_in dl track (p0 ++ NewOutDir i :: p1) d h ->
  exists q j es r, p1 = q ++ SetHits j h es :: r /\
    out_dir (calls dl track (p0 ++ NewOutDir i :: q)) j = Some d.
Proof.
  intros L K O (a & j & es & b & E & Oa).
  assert (Ed : d = length (dirs (calls dl track p0))).
  { change (p0 ++ NewOutDir i :: p1) with (p0 ++ [NewOutDir i] ++ p1) in O.
    rewrite app_assoc in O.
    assert (L' : i < length (procs (calls dl track (p0 ++ [NewOutDir i])))).
    { rewrite calls_snoc. simpl. unfold new_out_dir. destruct (nth_error _ i); auto. simpl.
      rewrite set_at_length. auto. }
    destruct (calls_dir p1 (p0 ++ [NewOutDir i]) i L' K) as (X & _).
    rewrite X, calls_snoc in O. simpl in O. rewrite out_dir_new_out_dir, Nat.eqb_refl in O.
    destruct (nth_error (procs (calls dl track p0)) i) eqn:G; [simpl in O; congruence|discriminate]. }
  assert (Da : d < length (dirs (calls dl track a))).
  { unfold out_dir in Oa. destruct (nth_error (procs (calls dl track a)) j) as [q|] eqn:G; try discriminate.
    simpl in Oa. inversion Oa; subst. eapply i_proc; [apply calls_inv|eauto]. }
  destruct (Nat.le_gt_cases (length a) (length p0)) as [Le|Gt].
  - exfalso.
    assert (Pa : exists c, p0 = a ++ c).
    { exists (skipn (length a) p0). rewrite <- (firstn_skipn (length a) p0) at 1. f_equal.
      assert (X : firstn (length a) (p0 ++ NewOutDir i :: p1) =
                  firstn (length a) (a ++ SetHits j h es :: b)) by (rewrite E; auto).
      rewrite !firstn_app in X. rewrite Nat.sub_diag, firstn_all in X. simpl in X.
      replace (length a - length p0) with 0 in X by lia. simpl in X. rewrite !app_nil_r in X. auto. }
    destruct Pa as [c Ec]. pose proof (calls_dirs_grow c a). rewrite <- Ec in *. lia.
  - assert (Pa : exists q, a = p0 ++ NewOutDir i :: q).
    { assert (X : firstn (length p0 + 1) (a ++ SetHits j h es :: b) =
                  firstn (length p0 + 1) (p0 ++ NewOutDir i :: p1)) by (rewrite E; auto).
      rewrite !firstn_app in X. replace (length p0 + 1 - length p0) with 1 in X by lia.
      replace (length p0 + 1 - length a) with 0 in X by lia. simpl in X.
      rewrite app_nil_r in X. rewrite (firstn_all2 p0) in X by lia.
      exists (skipn (length p0 + 1) a). rewrite <- (firstn_skipn (length p0 + 1) a) at 1.
      rewrite X, <- app_assoc. auto. }
    destruct Pa as [q ->]. exists q, j, es, b. split; auto.
    rewrite <- app_assoc in E. apply app_inv_head in E. simpl in E. inversion E. auto.
Qed.

End Proofs.
