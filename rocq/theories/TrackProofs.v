From Coq Require Import ZArith List Bool Lia.
From Verif Require Import TrackModel TrackSpec.
Import ListNotations.
Open Scope list_scope.

Lemma set_at_length {A} (l : list A) i a : length (set_at l i a) = length l.
Proof. revert i; induction l; intros [|i]; simpl; auto. Qed.

Lemma set_at_same {A} (l : list A) i a : i < length l -> nth_error (set_at l i a) i = Some a.
Proof. revert i; induction l; intros [|i] Hi; simpl in *; try lia; auto. apply IHl. lia. Qed.

Lemma set_at_other {A} (l : list A) i j a : i <> j -> nth_error (set_at l i a) j = nth_error l j.
Proof.
  revert i j; induction l; intros [|i] [|j] Hi; simpl in *; try lia; auto.
Qed.

Lemma set_at_get {A} (l : list A) i j a x :
  nth_error (set_at l i a) j = Some x ->
  (i = j /\ x = a /\ i < length l) \/ (i <> j /\ nth_error l j = Some x).
Proof.
  intros E. destruct (Nat.eq_dec i j) as [-> | N].
  - left. assert (Hj : j < length l).
    { rewrite <- (set_at_length l j a). apply nth_error_Some. congruence. }
    rewrite set_at_same in E by auto. inversion E. auto.
  - right. rewrite set_at_other in E; auto.
Qed.

Lemma some_lt {A} (l : list A) i x : nth_error l i = Some x -> i < length l.
Proof. intros E. apply nth_error_Some. congruence. Qed.

Lemma nth_app_get {A} (l : list A) a j x :
  nth_error (l ++ [a]) j = Some x ->
  (j < length l /\ nth_error l j = Some x) \/ (j = length l /\ x = a).
Proof.
  intros E. destruct (Nat.lt_ge_cases j (length l)).
  - left. rewrite nth_error_app1 in E by auto. auto.
  - right. rewrite nth_error_app2 in E by auto.
    destruct (j - length l) eqn:D; simpl in E; [|destruct n; discriminate].
    inversion E. split; [lia|auto].
Qed.

Lemma nth_app_last {A} (l : list A) a : nth_error (l ++ [a]) (length l) = Some a.
Proof. rewrite nth_error_app2, Nat.sub_diag; auto. Qed.

Section Proofs.
Context {H T : Type}.
Variable dl : Dialect.
Variable track : list H -> option (list T).
Notation SysHT := (@Sys H T).
Notation CallH := (@Call H).
Notation events := (events dl track).
Notation event := (event dl track).

(** * Effect of writing *)

Lemma write_jar_dirs (s : SysHT) d f :
  procs (write_jar s d f) = procs s /\ kids (write_jar s d f) = kids s /\
  cwd (write_jar s d f) = cwd s /\ length (dirs (write_jar s d f)) = length (dirs s).
Proof. unfold write_jar. destruct (nth_error (dirs s) d); simpl; rewrite ?set_at_length; auto. Qed.

Lemma write_sandwich_dirs (s : SysHT) d f :
  procs (write_sandwich s d f) = procs s /\ kids (write_sandwich s d f) = kids s /\
  cwd (write_sandwich s d f) = cwd s /\
  length (dirs (write_sandwich s d f)) = length (dirs s).
Proof.
  unfold write_sandwich. destruct (nth_error (dirs s) d); simpl; rewrite ?set_at_length; auto.
Qed.

Lemma write_jar_get (s : SysHT) d f d' x :
  nth_error (dirs (write_jar s d f)) d' = Some x ->
  (d' = d /\ exists y, nth_error (dirs s) d = Some y /\ x = mkDir (Some f) (sandwich y)) \/
  (d' <> d /\ nth_error (dirs s) d' = Some x).
Proof.
  unfold write_jar. destruct (nth_error (dirs s) d) as [y|] eqn:E; simpl; intros G.
  - apply set_at_get in G. destruct G as [(-> & -> & ?)|(? & ?)]; eauto 7.
  - right. split; auto. intros ->. congruence.
Qed.

Lemma write_sandwich_get (s : SysHT) d f d' x :
  nth_error (dirs (write_sandwich s d f)) d' = Some x ->
  (d' = d /\ exists y, nth_error (dirs s) d = Some y /\ x = mkDir (jar y) f) \/
  (d' <> d /\ nth_error (dirs s) d' = Some x).
Proof.
  unfold write_sandwich. destruct (nth_error (dirs s) d) as [y|] eqn:E; simpl; intros G.
  - apply set_at_get in G. destruct G as [(-> & -> & ?)|(? & ?)]; eauto 7.
  - right. split; auto. intros ->. congruence.
Qed.

Lemma write_jar_other (s : SysHT) d f d' :
  d' <> d -> nth_error (dirs (write_jar s d f)) d' = nth_error (dirs s) d'.
Proof.
  intros N. unfold write_jar. destruct (nth_error (dirs s) d); simpl; auto.
  apply set_at_other; auto.
Qed.

Lemma write_sandwich_other (s : SysHT) d f d' :
  d' <> d -> nth_error (dirs (write_sandwich s d f)) d' = nth_error (dirs s) d'.
Proof.
  intros N. unfold write_sandwich. destruct (nth_error (dirs s) d); simpl; auto.
  apply set_at_other; auto.
Qed.

Lemma write_jar_same (s : SysHT) d f y :
  nth_error (dirs s) d = Some y ->
  nth_error (dirs (write_jar s d f)) d = Some (mkDir (Some f) (sandwich y)).
Proof.
  intros E. unfold write_jar. rewrite E. simpl. apply set_at_same. eapply some_lt; eauto.
Qed.

Lemma write_sandwich_same (s : SysHT) d f y :
  nth_error (dirs s) d = Some y ->
  nth_error (dirs (write_sandwich s d f)) d = Some (mkDir (jar y) f).
Proof.
  intros E. unfold write_sandwich. rewrite E. simpl. apply set_at_same. eapply some_lt; eauto.
Qed.

(** * Provenance invariant: everything on disk and in the children comes from a list that was
      set in that directory. *)

Definition from (P : nat -> list H -> Prop) (d : nat) (v : list T) : Prop :=
  exists h, P d h /\ track h = Some v.

Definition phase_ok (P : nat -> list H -> Prop) (d : nat) (ph : Phase) : Prop :=
  match ph with
  | Loaded h | Cleared h => P d h
  | Computed v | Writing v => from P d v
  | _ => True
  end.

Definition dir_ok (P : nat -> list H -> Prop) (d : nat) (x : @Dir H T) : Prop :=
  (forall h, jar x = Some (Whole h) -> P d h) /\
  (forall v, sandwich x = Some (Whole v) -> from P d v).

Record Inv (P : nat -> list H -> Prop) (s : SysHT) : Prop := mkInv {
  i_proc : forall i p, nth_error (procs s) i = Some p -> p_dir p < length (dirs s);
  i_child : forall i p k, nth_error (procs s) i = Some p -> p_child p = Some k ->
            k < length (kids s);
  i_kid : forall k kid, nth_error (kids s) k = Some kid ->
          k_dir kid < length (dirs s) /\ phase_ok P (k_dir kid) (k_phase kid) /\
          (forall d, k_cwd kid = Some d -> d < length (dirs s));
  i_cwd : forall d, cwd s = Some d -> d < length (dirs s);
  i_dir : forall d x, nth_error (dirs s) d = Some x -> dir_ok P d x;
  i_exit : forall i p, nth_error (procs s) i = Some p -> p_child p = None -> p_exit p = None
}.

Lemma phase_ok_mono (P Q : nat -> list H -> Prop) d ph :
  (forall d h, P d h -> Q d h) -> phase_ok P d ph -> phase_ok Q d ph.
Proof. intros I. destruct ph; simpl; auto; intros (h & ? & ?); exists h; auto. Qed.

Lemma Inv_mono (P Q : nat -> list H -> Prop) s :
  (forall d h, P d h -> Q d h) -> Inv P s -> Inv Q s.
Proof.
  intros I [A B C D E F]. constructor; auto.
  - intros k kid G. destruct (C _ _ G) as (? & ? & ?). split; auto. split; auto.
    eapply phase_ok_mono; eauto.
  - intros d x G. destruct (E _ _ G) as [J K]. split; [auto|].
    intros v Hv. destruct (K v Hv) as (h & ? & ?). exists h; auto.
Qed.

Lemma set_phase_inv P s k kid ph :
  Inv P s -> nth_error (kids s) k = Some kid -> phase_ok P (k_dir kid) ph ->
  Inv P (set_phase s k kid ph).
Proof.
  intros [A B C D E F] G Hp. unfold set_phase, with_kids. constructor; simpl; auto.
  - intros i p k' X Y. rewrite set_at_length. eauto.
  - intros k' kid' X. apply set_at_get in X. destruct X as [(-> & -> & ?)|(? & X)]; eauto.
    simpl. destruct (C _ _ G) as (? & ? & ?). auto.
Qed.

Lemma write_sandwich_inv P s d f :
  Inv P s -> (forall v, f = Some (Whole v) -> from P d v) -> Inv P (write_sandwich s d f).
Proof.
  intros [A B C D E F] Hf. pose proof (write_sandwich_dirs s d f) as (e1 & e2 & e3 & e4).
  constructor; rewrite ?e1, ?e2, ?e3, ?e4; auto.
  intros d' x G. apply write_sandwich_get in G.
  destruct G as [(-> & y & Y & ->)|(? & G)]; eauto.
  destruct (E _ _ Y) as [J K]. split; simpl; auto.
Qed.

Lemma write_jar_inv P s d f :
  Inv P s -> (forall h, f = Whole h -> P d h) -> Inv P (write_jar s d f).
Proof.
  intros [A B C D E F] Hf. pose proof (write_jar_dirs s d f) as (e1 & e2 & e3 & e4).
  constructor; rewrite ?e1, ?e2, ?e3, ?e4; auto.
  intros d' x G. apply write_jar_get in G.
  destruct G as [(-> & y & Y & ->)|(? & G)]; eauto.
  destruct (E _ _ Y) as [J K]. split; simpl; auto. intros h X. inversion X; auto.
Qed.

Lemma kid_step_inv P s k : Inv P s -> Inv P (kid_step dl track s k).
Proof.
  intros I. unfold kid_step. destruct (nth_error (kids s) k) as [kid|] eqn:G; auto.
  destruct (i_kid _ _ I _ _ G) as (Hd & Hp & Hc).
  destruct (k_phase kid) eqn:Ep; simpl in Hp; auto.
  - destruct (nth_error (dirs s) (k_dir kid)) as [[[[h|]|] sw]|] eqn:Ed;
      try (apply set_phase_inv; simpl; auto; fail).
    destruct (text_pickle dl); apply set_phase_inv; simpl; auto.
    destruct (i_dir _ _ I _ _ Ed) as [J _]. apply J. auto.
  - destruct (k_cwd kid) as [d|]; apply set_phase_inv; simpl; auto.
    + apply write_sandwich_inv; auto; discriminate.
    + rewrite (proj1 (proj2 (write_sandwich_dirs s d None))). auto.
  - destruct (track h) as [v|] eqn:Et; apply set_phase_inv; simpl; auto. exists h; auto.
  - apply set_phase_inv; simpl; auto.
    + apply write_sandwich_inv; auto; discriminate.
    + rewrite (proj1 (proj2 (write_sandwich_dirs s (k_dir kid) (Some Truncated)))). auto.
  - destruct (text_pickle dl).
    + apply set_phase_inv; simpl; auto.
      * apply write_sandwich_inv; auto. intros v' X. inversion X; subst; auto.
      * rewrite (proj1 (proj2 (write_sandwich_dirs s (k_dir kid) (Some (Whole v))))). auto.
    + apply set_phase_inv; simpl; auto.
  - apply set_phase_inv; simpl; auto.
Qed.

Lemma event_inv P s e : Inv P s -> Inv P (event s e).
Proof.
  intros I. destruct e as [k|k c]; simpl; [apply kid_step_inv; auto|].
  destruct (nth_error (kids s) k) as [kid|] eqn:G; auto.
  destruct (k_phase kid) eqn:Ep; auto; apply set_phase_inv; simpl; auto.
Qed.

Lemma events_inv P es s : Inv P s -> Inv P (events s es).
Proof.
  unfold TrackModel.events. revert s; induction es; simpl; auto. intros s I.
  apply IHes, event_inv; auto.
Qed.

Lemma set_proc_inv P s i p :
  Inv P s -> p_dir p < length (dirs s) ->
  (forall k, p_child p = Some k -> k < length (kids s)) ->
  (p_child p = None -> p_exit p = None) ->
  Inv P (set_proc s i p).
Proof.
  intros [A B C D E F] X Y Z. unfold set_proc, with_procs. constructor; simpl; auto.
  - intros j q G. apply set_at_get in G. destruct G as [(-> & -> & ?)|(? & G)]; eauto.
  - intros j q k G. apply set_at_get in G. destruct G as [(-> & -> & ?)|(? & G)]; eauto.
  - intros j q G. apply set_at_get in G. destruct G as [(-> & -> & ?)|(? & G)]; eauto.
Qed.

Lemma is_alive_inv P s i : Inv P s -> Inv P (fst (is_alive s i)).
Proof.
  intros I. unfold is_alive. destruct (nth_error (procs s) i) as [p|] eqn:G; auto.
  destruct (p_child p) as [k|] eqn:K; auto. simpl. apply set_proc_inv; simpl; auto.
  - eapply i_proc; eauto.
  - intros k' Hk. inversion Hk; subst. eapply i_child; eauto.
  - discriminate.
Qed.

Lemma new_out_dir_inv P s i : Inv P s -> Inv P (new_out_dir s i).
Proof.
  intros I. unfold new_out_dir. destruct (nth_error (procs s) i) as [p|] eqn:G; auto.
  apply set_proc_inv; simpl.
  - destruct I as [A B C D E F]. constructor; simpl; auto; rewrite ?app_length; simpl.
    + intros j q X. specialize (A _ _ X). lia.
    + intros k kid X. destruct (C _ _ X) as (? & ? & Hc). split; [lia|]. split; auto.
      intros d Hd. specialize (Hc _ Hd). lia.
    + intros d Hd. specialize (D _ Hd). lia.
    + intros d x X. apply nth_app_get in X. destruct X as [(? & X)|(-> & ->)]; eauto.
      split; simpl; discriminate.
  - rewrite app_length; simpl; lia.
  - intros k K. eapply i_child; eauto.
  - intros K. eapply i_exit; eauto.
Qed.

Lemma with_procs_inv P (s : SysHT) p :
  Inv P s -> p_dir p < length (dirs s) -> p_child p = None -> p_exit p = None ->
  Inv P (with_procs s (procs s ++ [p])).
Proof.
  intros [A B C D E F] X Y Z. constructor; simpl; auto.
  - intros j q G. apply nth_app_get in G. destruct G as [(? & G)|(-> & ->)]; eauto.
  - intros j q k G. apply nth_app_get in G. destruct G as [(? & G)|(-> & ->)]; eauto. congruence.
  - intros j q G. apply nth_app_get in G. destruct G as [(? & G)|(-> & ->)]; eauto.
Qed.

Lemma set_at_set_at {A} (l : list A) i a b : set_at (set_at l i a) i b = set_at l i b.
Proof. revert i; induction l; intros [|i]; simpl; auto. rewrite IHl; auto. Qed.

Lemma set_at_end {A} (l : list A) a b : set_at (l ++ [a]) (length l) b = l ++ [b].
Proof. induction l; simpl; auto. rewrite IHl; auto. Qed.

Lemma new_process_eq (s : SysHT) :
  new_process s = mkSys (procs s ++ [mkProc (length (dirs s)) None None None])
                        (dirs s ++ [mkDir None None]) (kids s) (cwd s).
Proof.
  unfold new_process, new_out_dir. simpl. rewrite nth_app_last. unfold set_proc, with_procs.
  simpl. rewrite set_at_end. auto.
Qed.

Lemma new_process_inv P s : Inv P s -> Inv P (new_process s).
Proof.
  intros [A B C D E F]. rewrite new_process_eq.
  constructor; simpl; auto; rewrite ?app_length; simpl.
  - intros j q G. apply nth_app_get in G. destruct G as [(? & G)|(-> & ->)]; simpl; [|lia].
    specialize (A _ _ G). lia.
  - intros j q k G. apply nth_app_get in G. destruct G as [(? & G)|(-> & ->)]; eauto. discriminate.
  - intros k kid X. destruct (C _ _ X) as (? & ? & Hc). split; [lia|]. split; auto.
    intros d Hd. specialize (Hc _ Hd). lia.
  - intros d Hd. specialize (D _ Hd). lia.
  - intros d x X. apply nth_app_get in X. destruct X as [(? & X)|(-> & ->)]; eauto.
    split; simpl; discriminate.
  - intros j q G. apply nth_app_get in G. destruct G as [(? & G)|(-> & ->)]; eauto.
Qed.

Lemma copy_inv P s i : Inv P s -> Inv P (fst (copy_process s i)).
Proof.
  intros I. unfold copy_process. destruct (nth_error (procs s) i) as [p|] eqn:G; auto.
  destruct (p_child p) eqn:K; auto. simpl. apply with_procs_inv; auto.
  - eapply i_proc; eauto.
  - eapply i_exit; eauto.
Qed.

Lemma events_frame es (s : SysHT) :
  procs (events s es) = procs s /\ cwd (events s es) = cwd s /\
  length (dirs (events s es)) = length (dirs s) /\
  length (kids (events s es)) = length (kids s).
Proof.
  unfold TrackModel.events. revert s; induction es as [|e es IH]; simpl; auto. intros s.
  destruct (IH (event s e)) as (-> & -> & -> & ->).
  assert (X : forall d f (s : SysHT), procs (write_sandwich s d f) = procs s /\
     kids (write_sandwich s d f) = kids s /\ cwd (write_sandwich s d f) = cwd s /\
     length (dirs (write_sandwich s d f)) = length (dirs s))
    by (intros; apply write_sandwich_dirs).
  destruct e as [k|k c]; simpl.
  - unfold kid_step. destruct (nth_error (kids s) k) as [kid|]; auto.
    destruct (k_phase kid); simpl; rewrite ?set_at_length; auto.
    + destruct (nth_error (dirs s) (k_dir kid)) as [[[[h|]|] sw]|];
        try destruct (text_pickle dl); simpl; rewrite ?set_at_length; auto.
    + destruct (k_cwd kid); simpl; rewrite ?set_at_length; auto.
      destruct (X n None s) as (-> & -> & -> & ->). auto.
    + destruct (track h); simpl; rewrite ?set_at_length; auto.
    + destruct (X (k_dir kid) (Some Truncated) s) as (-> & -> & -> & ->). auto.
    + destruct (text_pickle dl); simpl; rewrite ?set_at_length; auto.
      destruct (X (k_dir kid) (Some (Whole v)) s) as (-> & -> & -> & ->). auto.
  - destruct (nth_error (kids s) k) as [kid|]; auto.
    destruct (k_phase kid); simpl; rewrite ?set_at_length; auto.
Qed.

Lemma set_hit_list_inv P s i h es :
  Inv P s -> Inv (fun d h' => P d h' \/ (out_dir s i = Some d /\ h' = h))
                 (fst (set_hit_list dl track s i h es)).
Proof.
  intros I. unfold set_hit_list, out_dir. destruct (nth_error (procs s) i) as [p|] eqn:G.
  2:{ simpl. eapply Inv_mono; [|exact I]. auto. }
  assert (J : Inv P (events (write_jar (set_proc s i
              (mkProc (p_dir p) (Some h) (p_child p) (p_exit p))) (p_dir p) Truncated) es)).
  { apply events_inv, write_jar_inv; [|discriminate]. apply set_proc_inv; simpl; auto.
    - eapply i_proc; eauto.
    - intros k Hk. eapply i_child; eauto.
    - intros K. eapply i_exit; eauto. }
  assert (K : Inv (fun d h' => P d h' \/ (option_map p_dir (Some p) = Some d /\ h' = h))
               (events (write_jar (set_proc s i
              (mkProc (p_dir p) (Some h) (p_child p) (p_exit p))) (p_dir p) Truncated) es))
    by (eapply Inv_mono; [|exact J]; auto).
  destruct (text_pickle dl); destruct (p_child p); simpl; auto.
  apply write_jar_inv; auto. intros h' X. inversion X; subst. simpl; auto.
Qed.

Lemma start_inv P s i f : Inv P s -> Inv P (fst (start s i f)).
Proof.
  intros I. unfold start. pose proof (is_alive_inv P s i I) as J.
  destruct (is_alive s i) as [s1 al]. simpl in J. destruct al; auto.
  destruct (nth_error (procs s1) i) as [p|] eqn:G; auto. destruct f; auto. simpl.
  apply set_proc_inv; simpl.
  - destruct J as [A B C D E F]. constructor; simpl; auto.
    + intros j q k X Y. rewrite app_length. specialize (B _ _ _ X Y). simpl; lia.
    + intros k kid X. apply nth_app_get in X. destruct X as [(? & X)|(-> & ->)]; eauto.
      simpl. split; [eapply A; eauto|]. split; auto.
  - eapply i_proc; eauto.
  - intros k X. inversion X. rewrite app_length; simpl; lia.
  - discriminate.
Qed.

Lemma join_inv P r : forall l s i, Inv P s -> Inv P (fst (join dl track r l s i)).
Proof.
  induction r as [|es r IH]; intros l s i I; simpl;
    pose proof (is_alive_inv P s i I) as J; destruct (is_alive s i) as [s1 al]; simpl in J.
  - destruct (al && _); auto.
  - destruct (al && _); auto. apply IH, events_inv; auto.
Qed.

Lemma kill_inv P r l s i : Inv P s -> Inv P (fst (kill dl track r l s i)).
Proof.
  intros I. unfold kill. destruct (nth_error (procs s) i) as [p|]; auto.
  destruct (p_child p); auto.
  pose proof (join_inv P r l s i I) as J. destruct (join dl track r l s i) as [s1 b].
  simpl in J. destruct b; auto. simpl. apply is_alive_inv; auto.
Qed.

Lemma get_inv P s i e1 e2 : Inv P s -> Inv P (fst (get_return_value dl track s i e1 e2)).
Proof.
  intros I. unfold get_return_value. pose proof (is_alive_inv P s i I) as J.
  destruct (is_alive s i) as [s1 al]. simpl in J. destruct al; auto.
  destruct (nth_error (procs s1) i) as [p|]; auto.
  destruct (p_exit p); auto.
  assert (J2 : Inv P (events s1 e1)) by (apply events_inv; auto).
  assert (J3 : Inv P (events (events s1 e1) e2)) by (apply events_inv; auto).
  destruct (nth_error (dirs (events s1 e1)) (p_dir p)) as [[jr [sw|]]|]; auto.
  destruct (nth_error (dirs (events (events s1 e1) e2)) (p_dir p)) as [[jr' [[v|]|]]|]; auto.
  destruct (text_pickle dl); auto.
Qed.

(** The predicate [set_in] after one more call. *)
Lemma set_in_app p q d h : set_in dl track p d h -> set_in dl track (p ++ q) d h.
Proof.
  intros (p1 & i & es & p2 & -> & Hd). exists p1, i, es, (p2 ++ q). split; auto.
  rewrite <- app_assoc. auto.
Qed.

Lemma calls_snoc p c : calls dl track (p ++ [c]) = call dl track (calls dl track p) c.
Proof. unfold calls. rewrite fold_left_app. auto. Qed.

Lemma calls_inv p : Inv (set_in dl track p) (calls dl track p).
Proof.
  induction p as [|c p IH] using rev_ind.
  - constructor; simpl; intros; try discriminate;
      match goal with X : nth_error [] ?i = _ |- _ => destruct i; discriminate end.
  - rewrite calls_snoc.
    assert (M : Inv (set_in dl track (p ++ [c])) (calls dl track p)).
    { eapply Inv_mono; [|exact IH]. intros; apply set_in_app; auto. }
    destruct c; simpl.
    + apply new_process_inv; auto.
    + apply copy_inv; auto.
    + apply new_out_dir_inv; auto.
    + eapply Inv_mono; [|apply set_hit_list_inv; exact IH].
      intros d h' [X | (X & ->)]; [apply set_in_app; auto|].
      exists p, i, es, []. auto.
    + apply start_inv; auto.
    + apply is_alive_inv; auto.
    + apply join_inv; auto.
    + apply kill_inv; auto.
    + apply get_inv; auto.
    + destruct d as [d|].
      * destruct (Nat.ltb_spec d (length (dirs (calls dl track p)))); auto.
        destruct M as [A B C D E F]. constructor; simpl; auto. intros d' X. inversion X; subst; auto.
      * destruct M as [A B C D E F]. constructor; simpl; auto. discriminate.
    + apply events_inv; auto.
Qed.

(** * get_return_value *)

Lemma is_alive_spec (s : SysHT) i s1 al :
  is_alive s i = (s1, al) ->
  dirs s1 = dirs s /\ kids s1 = kids s /\ cwd s1 = cwd s /\
  (forall j, out_dir s1 j = out_dir s j) /\ (forall j, child s1 j = child s j) /\
  (forall j, j <> i -> nth_error (procs s1) j = nth_error (procs s) j) /\
  length (procs s1) = length (procs s) /\
  (al = true -> exists k, child s i = Some k /\ poll s k = None) /\
  (al = false -> forall k, child s i = Some k -> exists c, poll s k = Some c) /\
  (forall p k, nth_error (procs s) i = Some p -> p_child p = Some k ->
     nth_error (procs s1) i = Some (mkProc (p_dir p) (p_hits p) (Some k) (poll s k))) /\
  (child s i = None -> s1 = s).
Proof.
  unfold is_alive, out_dir, child. destruct (nth_error (procs s) i) as [p|] eqn:G.
  2:{ intros E; inversion E; subst. repeat split; auto; try discriminate; intros; congruence. }
  destruct (p_child p) as [k|] eqn:K.
  - intros E; inversion E; subst. simpl.
    assert (L : i < length (procs s)) by (eapply some_lt; eauto).
    repeat split; auto.
    + intros j. destruct (Nat.eq_dec i j) as [<- | N].
      * rewrite set_at_same by auto. rewrite G. auto.
      * rewrite set_at_other; auto.
    + intros j. destruct (Nat.eq_dec i j) as [<- | N].
      * rewrite set_at_same by auto. rewrite G. simpl; auto.
      * rewrite set_at_other; auto.
    + intros j N. apply set_at_other; auto.
    + apply set_at_length.
    + intros X. exists k. split; auto. destruct (poll s k); auto; discriminate.
    + intros X k' Hk. inversion Hk; subst. destruct (poll s k'); eauto; discriminate.
    + intros p' k' Hp Hk. inversion Hp; subst. rewrite K in Hk. inversion Hk; subst.
      rewrite set_at_same by auto. auto.
    + intros; discriminate.
  - intros E; inversion E; subst. repeat split; auto; try discriminate; intros; congruence.
Qed.

Lemma poll_ended (s : SysHT) k c : poll s k = Some c -> ended s k.
Proof.
  unfold poll, ended. destruct (nth_error (kids s) k) as [kid|]; try discriminate.
  destruct (k_phase kid) eqn:E; try discriminate. intros X. inversion X; subst. eauto.
Qed.

Lemma ended_poll (s : SysHT) k : ended s k -> exists c, poll s k = Some c.
Proof. unfold poll, ended. intros (kid & c & -> & ->). eauto. Qed.

Lemma running_poll (s : SysHT) k : running s k -> poll s k = None.
Proof. unfold poll, running. intros (kid & -> & X). destruct (k_phase kid) as [ | h | h | v | v | | c]; auto. exfalso; apply (X c); auto. Qed.

Lemma poll_running (s : SysHT) k : k < length (kids s) -> poll s k = None -> running s k.
Proof.
  unfold poll, running. intros L. destruct (nth_error (kids s) k) as [kid|] eqn:E.
  - intros X. exists kid. split; auto. intros c Y. rewrite Y in X. discriminate.
  - apply nth_error_None in E. lia.
Qed.

Lemma get_ret P s i e1 e2 s' v :
  Inv P s -> get_return_value dl track s i e1 e2 = (s', Ret v) ->
  exists d k, out_dir s i = Some d /\ child s i = Some k /\ ended s k /\
    output s' d = Some (Whole v) /\ from P d v /\ text_pickle dl = true /\
    s' = events (events (fst (is_alive s i)) e1) e2.
Proof.
  intros I. unfold get_return_value. pose proof (is_alive_inv P s i I) as J.
  destruct (is_alive s i) as [s1 al] eqn:EA. simpl in J.
  apply is_alive_spec in EA.
  destruct EA as (e3 & e4 & e5 & e6 & e7 & _ & _ & _ & Hd & He & Hn).
  destruct al; try discriminate.
  destruct (nth_error (procs s1) i) as [p|] eqn:G; try discriminate.
  destruct (p_exit p) as [c|] eqn:X; try discriminate.
  assert (J2 : Inv P (events s1 e1)) by (apply events_inv; auto).
  assert (J3 : Inv P (events (events s1 e1) e2)) by (apply events_inv; auto).
  destruct (nth_error (dirs (events s1 e1)) (p_dir p)) as [[jr [sw|]]|]; try discriminate.
  destruct (nth_error (dirs (events (events s1 e1) e2)) (p_dir p)) as [[jr' [[v'|]|]]|] eqn:Gd;
    try discriminate.
  destruct (text_pickle dl); try discriminate.
  intros E; inversion E; subst.
  destruct (p_child p) as [k|] eqn:K.
  2:{ pose proof (i_exit _ _ J _ _ G K). congruence. }
  exists (p_dir p), k.
  assert (C : child s i = Some k) by (rewrite <- e7; unfold child; rewrite G; auto).
  split. { rewrite <- e6. unfold out_dir. rewrite G; auto. }
  split; auto. split. { destruct (Hd eq_refl _ C) as [c' Hc]. eapply poll_ended; eauto. }
  split. { unfold output. rewrite Gd. auto. }
  split; auto. destruct (i_dir _ _ J3 _ _ Gd) as [_ Q]. apply Q. auto.
Qed.

(** An object whose last child runs, or that was never started, raises RuntimeError. *)
Lemma get_running s i k e1 e2 :
  child s i = Some k -> running s k ->
  snd (get_return_value dl track s i e1 e2) = Exc RuntimeErr.
Proof.
  intros C R. unfold get_return_value. destruct (is_alive s i) as [s1 al] eqn:EA.
  apply is_alive_spec in EA.
  destruct EA as (_ & _ & _ & _ & _ & _ & _ & _ & Hd & _ & _).
  destruct al; auto. destruct (Hd eq_refl _ C) as [c Hc].
  rewrite (running_poll _ _ R) in Hc. discriminate.
Qed.

Lemma get_unstarted P s i d e1 e2 :
  Inv P s -> out_dir s i = Some d -> child s i = None ->
  snd (get_return_value dl track s i e1 e2) = Exc RuntimeErr.
Proof.
  intros I O C. unfold get_return_value. destruct (is_alive s i) as [s1 al] eqn:EA.
  apply is_alive_spec in EA.
  destruct EA as (_ & _ & _ & _ & _ & _ & _ & Ht & _ & _ & Hn).
  rewrite (Hn C). destruct al; auto.
  unfold out_dir in O. unfold child in C. destruct (nth_error (procs s) i) as [p|] eqn:G; try discriminate.
  rewrite (i_exit _ _ I _ _ G C). auto.
Qed.

Lemma get_no_output P s i d k e2 :
  Inv P s -> out_dir s i = Some d -> child s i = Some k -> ended s k -> output s d = None ->
  snd (get_return_value dl track s i [] e2) = Exc RuntimeErr.
Proof.
  intros I O C E N. unfold get_return_value. destruct (is_alive s i) as [s1 al] eqn:EA.
  pose proof EA as EB.
  apply is_alive_spec in EA.
  destruct EA as (e3 & _ & _ & e6 & _ & _ & _ & Ht & Hd & He & Hn).
  destruct (ended_poll _ _ E) as [c Hc].
  destruct al; auto.
  unfold out_dir in O. unfold child in C.
  destruct (nth_error (procs s) i) as [p|] eqn:G; try discriminate. simpl in O. inversion O; subst.
  rewrite (He _ _ eq_refl C). simpl. rewrite Hc, e3.
  unfold output in N. destruct (nth_error (dirs s) (p_dir p)) as [[jr [f|]]|]; simpl in N; auto.
  discriminate.
Qed.

End Proofs.
