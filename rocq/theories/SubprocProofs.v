(** Proofs for subprocesses (C90). *)
From Coq Require Import List Bool Arith Lia.
From Verif Require Import SubprocModel SubprocSpec.
Import ListNotations.

Definition started (l : list MP) : list nat :=
  flat_map (fun m => match m with MStarted n => [n] | _ => [] end) l.

Definition good (m : MP) : Prop := match m with MFailed | MClosed => False | _ => True end.

Record Inv (w : World) : Prop := {
  inv_pids : NoDup (map pid (table w));
  inv_nodup : NoDup (started (mps w) ++ fks w);
  inv_recorded : forall p, In p (table w) -> child p = true -> In (pid p) (started (mps w) ++ fks w);
  inv_present : forall n, In n (started (mps w) ++ fks w) ->
                exists p, In p (table w) /\ child p = true /\ pid p = n;
  inv_good : Forall good (mps w) }.

(** ---- signals as maps ------------------------------------------------------------- *)

Definition mem (n : nat) (l : list nat) : bool := existsb (Nat.eqb n) l.

Lemma mem_in n l : mem n l = true <-> In n l.
Proof.
  unfold mem. rewrite existsb_exists. split.
  - intros (x & H & E). apply Nat.eqb_eq in E. now subst.
  - intros H. exists n. now rewrite Nat.eqb_refl.
Qed.

Definition sig (s : Signal) (p : Proc) : Proc :=
  match s with SIGKILL => stopped p | SIGTERM => if soft p then stopped p else p end.

Definition hit (l : list nat) (s : Signal) (p : Proc) : Proc := if mem (pid p) l then sig s p else p.

Lemma sig_pid s p : pid (sig s p) = pid p.
Proof. destruct s; cbn; [destruct (soft p)|]; reflexivity. Qed.
Lemma sig_child s p : child (sig s p) = child p.
Proof. destruct s; cbn; [destruct (soft p)|]; reflexivity. Qed.
Lemma sig_soft s p : soft (sig s p) = soft p.
Proof. destruct s; cbn; [destruct (soft p) eqn:E|]; cbn; auto. Qed.
Lemma sig_idem s p : sig s (sig s p) = sig s p.
Proof. destruct s; cbn; [destruct (soft p) eqn:E; cbn; rewrite E|]; reflexivity. Qed.
Lemma hit_pid l s p : pid (hit l s p) = pid p.
Proof. unfold hit. destruct (mem _ _); auto using sig_pid. Qed.
Lemma hit_child l s p : child (hit l s p) = child p.
Proof. unfold hit. destruct (mem _ _); auto using sig_child. Qed.
Lemma hit_soft l s p : soft (hit l s p) = soft p.
Proof. unfold hit. destruct (mem _ _); auto using sig_soft. Qed.

Lemma hit_cons n l s p : hit l s (hit [n] s p) = hit (n :: l) s p.
Proof.
  unfold hit at 1. rewrite hit_pid. unfold hit, mem. cbn [existsb].
  destruct (Nat.eqb (pid p) n); cbn [orb];
    destruct (existsb (Nat.eqb (pid p)) l); rewrite ?sig_idem; reflexivity.
Qed.

Definition children (n : nat) (t : list Proc) : Prop := forall p, In p t -> pid p = n -> child p = true.

Lemma has_pid_in n t : has_pid n t = true <-> In n (map pid t).
Proof.
  unfold has_pid. rewrite existsb_exists, in_map_iff. split.
  - intros (p & H & E). apply Nat.eqb_eq in E. eauto.
  - intros (p & E & H). exists p. split; [exact H|]. now apply Nat.eqb_eq.
Qed.

Lemma has_pid_not n t : has_pid n t = false <-> ~ In n (map pid t).
Proof. rewrite <- has_pid_in. destruct (has_pid n t); intuition congruence. Qed.

Lemma flat_map_singletons {A B} (f : A -> list B) (g : A -> B) l :
  (forall x, In x l -> f x = [g x]) -> flat_map f l = map g l.
Proof.
  induction l as [|x l IH]; intros H; [reflexivity|]. cbn [flat_map map].
  rewrite (H x) by (left; reflexivity). cbn [app]. f_equal. apply IH. intros y Y. apply H. now right.
Qed.

Lemma os_kill_map n s t :
  children n t -> has_pid n t = true -> os_kill n s t = Some (map (hit [n] s) t).
Proof.
  intros C H. unfold os_kill. rewrite H. f_equal. apply flat_map_singletons.
  intros p P. unfold hit, mem. cbn [existsb]. rewrite orb_false_r.
  destruct (Nat.eqb (pid p) n) eqn:E; [|reflexivity].
  apply Nat.eqb_eq in E. specialize (C p P E).
  destruct s; cbn [signalled sig]; unfold ended; rewrite C; [destruct (soft p)|]; reflexivity.
Qed.

Lemma hit_absent n s t : has_pid n t = false -> map (hit [n] s) t = t.
Proof.
  intros H. rewrite <- (map_id t) at 2. apply map_ext_in. intros p P.
  unfold hit, mem. cbn [existsb]. rewrite orb_false_r.
  destruct (Nat.eqb (pid p) n) eqn:E; [|reflexivity].
  apply Nat.eqb_eq in E. exfalso. apply (proj1 (has_pid_not n t) H).
  apply in_map_iff. eauto.
Qed.

Lemma map_hit_pids l s t : map pid (map (hit l s) t) = map pid t.
Proof. rewrite map_map. apply map_ext. intros p. apply hit_pid. Qed.

Lemma children_hit n l s t : children n t -> children n (map (hit l s) t).
Proof.
  intros C p P E. apply in_map_iff in P as (q & <- & Q). rewrite hit_child. rewrite hit_pid in E. eauto.
Qed.

Lemma hit_nil s t : map (hit [] s) t = t.
Proof. rewrite <- (map_id t) at 2. apply map_ext. reflexivity. Qed.

Lemma kill_mps_map l : forall t, Forall good l -> (forall n, In n (started l) -> children n t) ->
  kill_mps l t = (map (hit (started l) SIGTERM) t, None).
Proof.
  induction l as [|m l IH]; intros t G C.
  - cbn [kill_mps started flat_map]. now rewrite hit_nil.
  - inversion G as [|? ? Gm Gl]; subst. cbn [kill_mps].
    destruct m as [|n| |]; try contradiction.
    + cbn [terminate]. change (started (MStarted n :: l)) with (n :: started l) in C |- *.
      assert (K : (match os_kill n SIGTERM t with Some t' => t' | None => t end) = map (hit [n] SIGTERM) t).
      { destruct (has_pid n t) eqn:H.
        - rewrite os_kill_map; [reflexivity| |exact H]. apply C. now left.
        - rewrite hit_absent by exact H. unfold os_kill. now rewrite H. }
      rewrite K, IH; [|exact Gl|].
      * rewrite map_map. f_equal. apply map_ext. intros p. apply hit_cons.
      * intros k K'. apply children_hit, C. now right.
    + cbn [terminate]. apply IH; [exact Gl|exact C].
Qed.

Lemma kill_fks_map l : forall t, (forall n, In n l -> children n t /\ In n (map pid t)) ->
  kill_fks l t = (map (hit l SIGKILL) t, None).
Proof.
  induction l as [|n l IH]; intros t C.
  - cbn [kill_fks]. now rewrite hit_nil.
  - cbn [kill_fks]. destruct (C n (or_introl eq_refl)) as [Cn Pn].
    rewrite os_kill_map; [|exact Cn|now apply has_pid_in].
    rewrite IH.
    + rewrite map_map. f_equal. apply map_ext. intros p. apply hit_cons.
    + intros k K. destruct (C k (or_intror K)) as [Ck Pk]. split; [now apply children_hit|].
      now rewrite map_hit_pids.
Qed.

Definition doom (w : World) (p : Proc) : Proc := hit (fks w) SIGKILL (hit (started (mps w)) SIGTERM p).

Lemma nodup_pid t : NoDup (map pid t) -> forall p q, In p t -> In q t -> pid p = pid q -> p = q.
Proof.
  induction t as [|x t IH]; intros N p q P Q E; [destruct P|].
  inversion N as [|? ? N1 N2]; subst.
  destruct P as [->|P], Q as [->|Q]; auto.
  - exfalso. apply N1. rewrite E. now apply in_map.
  - exfalso. apply N1. rewrite <- E. now apply in_map.
Qed.

Lemma inv_children w : Inv w -> forall n, In n (started (mps w) ++ fks w) -> children n (table w).
Proof.
  intros I n H p P E. destruct (inv_present w I n H) as (q & Q & Cq & Eq).
  rewrite (nodup_pid _ (inv_pids w I) p q P Q); congruence.
Qed.

Lemma kill_all_inv w : Inv w -> kill_all w = (set_table w (map (doom w) (table w)), RNone).
Proof.
  intros I. unfold kill_all.
  rewrite kill_mps_map; [|apply inv_good, I|].
  2:{ intros n H. apply inv_children; [exact I|]. apply in_or_app. now left. }
  rewrite kill_fks_map.
  - rewrite map_map. reflexivity.
  - intros n H. split.
    + apply children_hit, inv_children; [exact I|]. apply in_or_app. now right.
    + rewrite map_hit_pids. destruct (inv_present w I n) as (q & Q & _ & <-).
      * apply in_or_app. now right.
      * now apply in_map.
Qed.

Lemma doom_pid w p : pid (doom w p) = pid p.
Proof. unfold doom. now rewrite !hit_pid. Qed.
Lemma doom_child w p : child (doom w p) = child p.
Proof. unfold doom. now rewrite !hit_child. Qed.
Lemma doom_soft w p : soft (doom w p) = soft p.
Proof. unfold doom. now rewrite !hit_soft. Qed.

Lemma doom_running w p : Inv w -> In p (table w) -> child p = true -> running (doom w p) = true ->
  soft p = false /\ In (pid p) (started (mps w)) /\ ~ In (pid p) (fks w).
Proof.
  intros I P C R. pose proof (inv_recorded w I p P C) as H.
  unfold doom, hit in R.
  destruct (mem (pid p) (started (mps w))) eqn:E1.
  - rewrite sig_pid in R. destruct (mem (pid p) (fks w)) eqn:E2; [discriminate|].
    cbn [sig] in R. destruct (soft p); [discriminate|]. split; [reflexivity|].
    split; [now apply mem_in|]. rewrite <- mem_in. congruence.
  - destruct (mem (pid p) (fks w)) eqn:E2; [discriminate|].
    exfalso. apply in_app_or in H. rewrite <- !mem_in in H. destruct H; congruence.
Qed.

Lemma doom_other w p : Inv w -> In p (table w) -> child p = false -> doom w p = p.
Proof.
  intros I P C.
  assert (N : forall l, (forall n, In n l -> In n (started (mps w) ++ fks w)) -> mem (pid p) l = false).
  { intros l L. destruct (mem (pid p) l) eqn:E; [|reflexivity]. apply mem_in, L in E.
    pose proof (inv_children w I _ E p P eq_refl). congruence. }
  unfold doom, hit. rewrite N by (intros n H; apply in_or_app; now left).
  rewrite N by (intros n H; apply in_or_app; now right). reflexivity.
Qed.

Lemma NoDup_insert {A} (a b : list A) x : NoDup (a ++ b) -> ~ In x (a ++ b) -> NoDup (a ++ x :: b).
Proof. intros N H. apply NoDup_Add with (a := x) (l := a ++ b); [apply Add_app|]. now split. Qed.

Lemma NoDup_snoc {A} (a : list A) x : NoDup a -> ~ In x a -> NoDup (a ++ [x]).
Proof. intros N H. apply NoDup_insert; rewrite app_nil_r; assumption. Qed.

(** ---- the invariant --------------------------------------------------------------- *)

Lemma started_app a b : started (a ++ b) = started a ++ started b.
Proof. apply flat_map_app. Qed.

Lemma inv_world0 t : fresh t -> Inv (world0 t).
Proof.
  intros [F N]. constructor; cbn.
  - exact N.
  - constructor.
  - intros p P C. assert (H : In p (ours t)) by (apply filter_In; auto). rewrite F in H. destruct H.
  - intros n [].
  - constructor.
Qed.

Lemma inv_spawn_mp w n s : Inv w -> has_pid n (table w) = false -> Inv (add_mp (spawn w n s) (MStarted n)).
Proof.
  intros I H. rewrite has_pid_not in H.
  assert (F : ~ In n (started (mps w) ++ fks w)).
  { intros K. destruct (inv_present w I n K) as (p & P & _ & E). apply H. subst. now apply in_map. }
  constructor; cbn [add_mp spawn set_table table mps fks].
  - rewrite map_app. cbn [map pid]. apply NoDup_snoc; [apply inv_pids, I|exact H].
  - rewrite started_app. cbn [started flat_map app]. rewrite <- app_assoc. cbn [app].
    apply (NoDup_insert (started (mps w)) (fks w)); [apply inv_nodup, I|exact F].
  - intros p P C. rewrite started_app, !in_app_iff. cbn [started flat_map app In].
    apply in_app_or in P as [P|[<-|[]]]; [|cbn; tauto].
    pose proof (inv_recorded w I p P C) as K. apply in_app_or in K. tauto.
  - intros k K. rewrite started_app, !in_app_iff in K. cbn [started flat_map app In] in K.
    destruct K as [[K|[<-|[]]]|K].
    + destruct (inv_present w I k) as (p & P & Q); [apply in_or_app; now left|].
      exists p. split; [apply in_or_app; now left|exact Q].
    + eexists. split; [apply in_or_app; right; left; reflexivity|]. split; reflexivity.
    + destruct (inv_present w I k) as (p & P & Q); [apply in_or_app; now right|].
      exists p. split; [apply in_or_app; now left|exact Q].
  - apply Forall_app. split; [apply inv_good, I|]. repeat constructor.
Qed.

Lemma inv_spawn_fk w n s : Inv w -> has_pid n (table w) = false -> Inv (add_fk (spawn w n s) n).
Proof.
  intros I H. rewrite has_pid_not in H.
  assert (F : ~ In n (started (mps w) ++ fks w)).
  { intros K. destruct (inv_present w I n K) as (p & P & _ & E). apply H. subst. now apply in_map. }
  constructor; cbn [add_fk spawn set_table table mps fks].
  - rewrite map_app. cbn [map pid]. apply NoDup_snoc; [apply inv_pids, I|exact H].
  - rewrite app_assoc. apply NoDup_snoc; [apply inv_nodup, I|exact F].
  - intros p P C. rewrite app_assoc. apply in_or_app.
    apply in_app_or in P as [P|[<-|[]]]; [left|right; now left].
    apply (inv_recorded w I p P C).
  - intros k K. rewrite app_assoc in K. apply in_app_or in K as [K|[<-|[]]].
    + destruct (inv_present w I k K) as (p & P & Q).
      exists p. split; [apply in_or_app; now left|exact Q].
    + eexists. split; [apply in_or_app; right; left; reflexivity|]. split; reflexivity.
  - apply inv_good, I.
Qed.

Lemma inv_fallback c a w w' r : Inv w -> Forall (fun n => has_pid n (table w) = false)
    (match fork a with Some n => [n] | None => [] end) -> fallback c a w = (w', r) -> Inv w'.
Proof.
  intros I P. unfold fallback. assert (E : match has_root c with Some e => e | None => EImport end = EImport).
  { unfold has_root. now destruct (has_ROOT c). }
  rewrite E. destruct (fork a) as [n|]; intros [= <- <-]; [|exact I].
  inversion P; subst. now apply inv_spawn_fk.
Qed.

Lemma inv_subprocess c a w w' r : Inv w -> ~ fails_to_start c a ->
  Forall (fun n => has_pid n (table w) = false) (new_pids (OSub a)) -> subprocess c a w = (w', r) -> Inv w'.
Proof.
  intros I G P. cbn [new_pids] in P. apply Forall_app in P as [P1 P2].
  unfold subprocess, has_multiprocessing. destruct (has_mp c) eqn:M; [|now apply inv_fallback].
  destruct (ctor a) eqn:K; [|now apply inv_fallback].
  destruct (start a) as [n|] eqn:T.
  - intros [= <- <-]. inversion P1; subst. now apply inv_spawn_mp.
  - exfalso. apply G. now repeat split.
Qed.

Lemma inv_map w f : Inv w -> (forall p, pid (f p) = pid p) -> (forall p, child (f p) = child p) ->
  Inv (set_table w (map f (table w))).
Proof.
  intros I F1 F2.
  constructor; cbn [set_table table mps fks].
  - rewrite map_map. erewrite map_ext; [apply inv_pids, I|exact F1].
  - apply inv_nodup, I.
  - intros p P C. apply in_map_iff in P as (q & <- & Q). rewrite F1. rewrite F2 in C.
    apply (inv_recorded w I q Q C).
  - intros n H. destruct (inv_present w I n H) as (p & P & C & E).
    exists (f p). split; [now apply in_map|]. now rewrite F1, F2.
  - apply inv_good, I.
Qed.

Lemma inv_filter w f : Inv w -> (forall p, In p (table w) -> child p = true -> f p = true) ->
  Inv (set_table w (filter f (table w))).
Proof.
  intros I F. constructor; cbn [set_table table mps fks].
  - pose proof (inv_pids w I) as N. clear F. induction (table w) as [|x t IH]; [constructor|].
    cbn [map filter] in *. inversion N as [|? ? N1 N2]; subst. destruct (f x); [|now apply IH].
    cbn [map]. constructor; [|now apply IH]. intros H. apply N1.
    apply in_map_iff in H as (y & <- & Y). apply filter_In in Y as [Y _]. now apply in_map.
  - apply inv_nodup, I.
  - intros p P. apply filter_In in P as [P _]. now apply (inv_recorded w I).
  - intros n H. destruct (inv_present w I n H) as (p & P & C & E).
    exists p. split; [|now split]. apply filter_In. split; [exact P|now apply F].
  - apply inv_good, I.
Qed.

Lemma ends_eq n t :
  ends n t = filter (fun p => negb (Nat.eqb (pid p) n && negb (child p)))
               (map (fun p => if Nat.eqb (pid p) n && child p then stopped p else p) t).
Proof.
  unfold ends. induction t as [|p t IH]; [reflexivity|]. cbn [flat_map map filter]. rewrite IH.
  unfold ended. destruct (Nat.eqb (pid p) n) eqn:E; cbn [andb].
  - destruct (child p) eqn:C; cbn [app stopped pid child]; rewrite ?E, ?C; cbn [andb negb app]; reflexivity.
  - rewrite E. cbn [andb negb app]. reflexivity.
Qed.

Lemma inv_ends w n : Inv w -> Inv (set_table w (ends n (table w))).
Proof.
  intros I. rewrite ends_eq.
  apply (inv_filter (set_table w (map _ (table w)))).
  - apply inv_map; [exact I| |]; intros p; destruct (Nat.eqb (pid p) n && child p); reflexivity.
  - intros p _ C. rewrite C, andb_false_r. reflexivity.
Qed.

Lemma inv_other w n s : Inv w -> has_pid n (table w) = false ->
  Inv (set_table w (table w ++ [{| pid := n; child := false; running := true; soft := s |}])).
Proof.
  intros I H. rewrite has_pid_not in H. constructor; cbn [set_table table mps fks].
  - rewrite map_app. cbn [map pid]. apply NoDup_snoc; [apply inv_pids, I|exact H].
  - apply inv_nodup, I.
  - intros p P C. apply in_app_or in P as [P|[<-|[]]]; [now apply (inv_recorded w I)|discriminate].
  - intros k K. destruct (inv_present w I k K) as (p & P & Q).
    exists p. split; [apply in_or_app; now left|exact Q].
  - apply inv_good, I.
Qed.

Lemma set_nth_split {A} (l : list A) i x : nth_error l i = Some x -> forall y, exists a b,
  l = a ++ x :: b /\ set_nth l i y = a ++ y :: b /\ List.length a = i.
Proof.
  revert i. induction l as [|z l IH]; intros [|i] H y; try discriminate.
  - injection H as ->. exists [], l. repeat split.
  - destruct (IH i H y) as (a & b & -> & E & L). exists (z :: a), b. cbn [set_nth List.length].
    rewrite E, L. repeat split.
Qed.

Lemma inv_join w i w' r : Inv w -> join_mp i w = (w', r) -> Inv w'.
Proof.
  intros I. unfold join_mp. destruct (nth_error (mps w) i) as [[|n| |]|] eqn:N; try (now intros [= <- <-]).
  destruct (is_zombie n (table w)) eqn:Z; [|now intros [= <- <-]]. intros [= <- <-].
  destruct (set_nth_split _ _ _ N MDone) as (a & b & E & E' & _). rewrite E'.
  assert (S1 : started (mps w) = started a ++ n :: started b) by (rewrite E, started_app; reflexivity).
  assert (S2 : started (a ++ MDone :: b) = started a ++ started b) by (rewrite started_app; reflexivity).
  pose proof (inv_nodup w I) as D. rewrite S1, <- app_assoc in D. cbn [app] in D.
  pose proof (NoDup_remove_1 _ _ _ D) as D1. pose proof (NoDup_remove_2 _ _ _ D) as D2.
  constructor; cbn [table mps fks].
  - pose proof (inv_pids w I) as P. unfold reap.
    clear - P. induction (table w) as [|x t IH]; [constructor|].
    cbn [map filter] in *. inversion P as [|? ? N1 N2]; subst. destruct (negb _); [|now apply IH].
    cbn [map]. constructor; [|now apply IH]. intros H. apply N1.
    apply in_map_iff in H as (y & <- & Y). apply filter_In in Y as [Y _]. now apply in_map.
  - rewrite S2, <- app_assoc. exact D1.
  - intros p P C. unfold reap in P. apply filter_In in P as [P F].
    pose proof (inv_recorded w I p P C) as K. rewrite S1 in K. rewrite S2.
    rewrite !in_app_iff in *. cbn [In] in K. destruct K as [[K|[K|K]]|K]; try tauto. exfalso.
    apply existsb_exists in Z as (q & Q & Z). apply andb_prop in Z as [Z Z3].
    apply andb_prop in Z as [Z1 Z2]. apply Nat.eqb_eq in Z1.
    assert (p = q) by (apply (nodup_pid _ (inv_pids w I)); congruence). subst q.
    rewrite Z1, Nat.eqb_refl, Z2, Z3 in F. discriminate.
  - intros k K. rewrite S2, <- app_assoc in K.
    assert (KN : k <> n) by (intros ->; contradiction).
    destruct (inv_present w I k) as (p & P & C & Ek).
    { rewrite S1. rewrite !in_app_iff in *. cbn [In]. tauto. }
    exists p. split; [|now split]. unfold reap. apply filter_In. split; [exact P|].
    destruct (Nat.eqb (pid p) n) eqn:X; [|reflexivity]. apply Nat.eqb_eq in X. congruence.
  - pose proof (inv_good w I) as G. rewrite E in G. apply Forall_app in G as [G1 G2].
    inversion G2; subst. apply Forall_app. split; [exact G1|]. now constructor.
Qed.

Lemma inv_flags w a b : Inv w ->
  Inv {| table := table w; mps := mps w; fks := fks w; flag_in := a; flag_out := b |}.
Proof. intros I. constructor; apply I. Qed.

Lemma inv_step c o w w' r : Inv w -> plain c o -> possible o w -> step c o w = (w', r) -> Inv w'.
Proof.
  intros I G P. destruct o as [a|a| |b|b|i|n|i|n|n s]; cbn [step plain] in *; try contradiction.
  - now apply inv_subprocess.
  - unfold show_and_continue, has_matplot. destruct (has_plt c) eqn:M; [|now intros [= <- <-]].
    destruct (subprocess c a w) as [w1 r1] eqn:S.
    pose proof (inv_subprocess c a w w1 r1 I (G eq_refl) P S).
    destruct r1; now intros [= <- <-].
  - rewrite kill_all_inv by exact I. intros [= <- <-].
    apply inv_map; [exact I|apply doom_pid|apply doom_child].
  - intros [= <- <-]. now apply inv_flags.
  - intros [= <- <-]. now apply inv_flags.
  - now apply inv_join.
  - intros [= <- <-]. now apply inv_ends.
  - intros [= <- <-]. inversion P; subst. now apply inv_other.
Qed.

Lemma inv_runs c w os w' rs : runs c w os w' rs -> Forall (plain c) os -> Inv w -> Inv w'.
Proof.
  induction 1 as [|w o w1 r os w2 rs P S R IH]; intros G I; [exact I|].
  inversion G; subst. apply IH; [assumption|]. eapply inv_step; eauto.
Qed.

(** ---- lists of processes only grow ------------------------------------------------ *)

Lemma fallback_fks c a w w' r : fallback c a w = (w', r) ->
  mps w' = mps w /\ flag_in w' = flag_in w /\
  (forall n, In n (fks w) -> In n (fks w')) /\ (forall n, r = RPid n -> In n (fks w')).
Proof.
  unfold fallback. destruct (match has_root c with Some e => e | None => EImport end);
    try (intros [= <- <-]; repeat split; [now auto|discriminate]).
  destruct (fork a); intros [= <- <-]; repeat split; try discriminate; auto; cbn.
  - intros m M. apply in_or_app. now left.
  - intros m [= ->]. apply in_or_app. right. now left.
Qed.

Lemma subprocess_fks c a w w' r : subprocess c a w = (w', r) ->
  flag_in w' = flag_in w /\
  (forall n, In n (fks w) -> In n (fks w')) /\ (forall n, r = RPid n -> In n (fks w')).
Proof.
  unfold subprocess. destruct (has_multiprocessing c);
    [intros H; apply fallback_fks in H; tauto|].
  destruct (ctor a); [|intros H; apply fallback_fks in H; tauto].
  destruct (start a); [intros [= <- <-]; repeat split; [now auto|discriminate]|].
  intros H. apply fallback_fks in H. cbn in H. tauto.
Qed.

Lemma kill_all_fks w w' r : kill_all w = (w', r) ->
  mps w' = mps w /\ fks w' = fks w /\ flag_in w' = flag_in w /\ forall n, r <> RPid n.
Proof.
  unfold kill_all. destruct (kill_mps _ _) as [t [e|]]; [intros [= <- <-]; now repeat split|].
  destruct (kill_fks _ _) as [t' [e|]]; intros [= <- <-]; now repeat split.
Qed.

Lemma step_fks c o w w' r : step c o w = (w', r) ->
  (forall n, In n (fks w) -> In n (fks w')) /\ (forall n, r = RPid n -> In n (fks w')).
Proof.
  destruct o as [a|a| |b|b|i|n|i|n|n s]; cbn [step];
    try (intros [= <- <-]; split; [now auto|discriminate]).
  - intros H. apply subprocess_fks in H. tauto.
  - unfold show_and_continue. destruct (has_matplot c); [intros [= <- <-]; split; [auto|discriminate]|].
    destruct (subprocess c a w) as [w1 r1] eqn:S. apply subprocess_fks in S.
    destruct r1; intros [= <- <-]; (split; [tauto|discriminate]).
  - intros H. apply kill_all_fks in H as (_ & -> & _ & N). split; [auto|]. intros n E. now destruct (N n).
  - unfold close_mp. destruct (nth_error (mps w) i) as [[]|]; intros [= <- <-]; (split; [auto|discriminate]).
  - destruct (is_fork n w && _); intros [= <- <-]; (split; [auto|discriminate]).
  - unfold join_mp. destruct (nth_error (mps w) i) as [[|m| |]|];
      try (intros [= <- <-]; split; [auto|discriminate]).
    destruct (is_zombie m (table w)); intros [= <- <-]; (split; [auto|discriminate]).
Qed.

Lemma runs_fks c w os w' rs : runs c w os w' rs ->
  (forall n, In n (fks w) -> In n (fks w')) /\ (forall n, In (RPid n) rs -> In n (fks w')).
Proof.
  induction 1 as [|w o w1 r os w2 rs P S R [IH1 IH2]]; [split; [auto|intros n []]|].
  apply step_fks in S as [S1 S2]. split; [auto|]. intros n [E|E]; auto.
Qed.

(** ---- flags ----------------------------------------------------------------------- *)

Lemma step_flag c o w w' r : step c o w = (w', r) ->
  flag_in w' = match o with OSetModule b => b | _ => flag_in w end.
Proof.
  destruct o as [a|a| |b|b|i|n|i|n|n s]; cbn [step]; try (now intros [= <- <-]).
  - intros H. now apply subprocess_fks in H.
  - unfold show_and_continue. destruct (has_matplot c); [now intros [= <- <-]|].
    destruct (subprocess c a w) as [w1 r1] eqn:S. apply subprocess_fks in S as [S _].
    destruct r1; now intros [= <- <-].
  - intros H. now apply kill_all_fks in H.
  - unfold close_mp. destruct (nth_error (mps w) i) as [[]|]; now intros [= <- <-].
  - destruct (is_fork n w && _); now intros [= <- <-].
  - unfold join_mp. destruct (nth_error (mps w) i) as [[|m| |]|]; try (now intros [= <- <-]).
    destruct (is_zombie m (table w)); now intros [= <- <-].
Qed.

Lemma runs_flag c w os w' rs : runs c w os w' rs -> flag_in w' = last_module (flag_in w) os.
Proof.
  induction 1 as [|w o w1 r os w2 rs P S R IH]; [reflexivity|].
  apply step_flag in S. rewrite IH, S. now destruct o.
Qed.

(** ---- what happens after a bad entry ---------------------------------------------- *)

Lemma os_kill_keeps n s t t' p : os_kill n s t = Some t' -> In p t -> pid p <> n -> In p t'.
Proof.
  unfold os_kill. destruct (has_pid n t); [|discriminate]. intros [= <-] P N.
  apply in_flat_map. exists p. split; [exact P|]. apply Nat.eqb_neq in N. rewrite N. now left.
Qed.

Lemma kill_mps_stops l m l2 : ~ good m -> forall t t' e, kill_mps (l ++ m :: l2) t = (t', e) ->
  e <> None /\ (e = Some EAttribute \/ e = Some EValue) /\
  forall p, In p t -> ~ In (pid p) (started l) -> In p t'.
Proof.
  intros B. induction l as [|x l IH]; intros t t' e.
  - cbn [app kill_mps]. destruct m; try (now destruct B); cbn [terminate]; intros [= <- <-];
      (split; [discriminate|]); split; auto.
  - cbn [app kill_mps]. destruct x as [|n| |]; cbn [terminate].
    + intros [= <- <-]. split; [discriminate|]; split; auto.
    + intros H. destruct (IH _ _ _ H) as (E1 & E2 & E3). split; [exact E1|]. split; [exact E2|].
      intros p P N. change (started (MStarted n :: l)) with (n :: started l) in N.
      apply E3; [|intros K; apply N; now right].
      destruct (os_kill n SIGTERM t) as [t1|] eqn:K; [|exact P].
      eapply os_kill_keeps; [exact K|exact P|]. intros X. apply N. now left.
    + intros H. apply (IH _ _ _ H).
    + intros [= <- <-]. split; [discriminate|]; split; auto.
Qed.

(** The Process objects change in place: a started one may be waited for, and any but a started one closed. *)
Definition later (m m' : MP) : Prop :=
  m' = m \/ (exists n, m = MStarted n /\ m' = MDone) \/ m' = MClosed.

Definition grows (l l' : list MP) : Prop := exists l1 l2, l' = l1 ++ l2 /\ Forall2 later l l1.

Lemma later_refl l : Forall2 later l l.
Proof. induction l; constructor; [now left|assumption]. Qed.

Lemma grows_snoc l l2 : grows l (l ++ l2).
Proof. exists l, l2. split; [reflexivity|apply later_refl]. Qed.

Lemma grows_refl l : grows l l.
Proof. exists l, []. split; [now rewrite app_nil_r|apply later_refl]. Qed.

Lemma grows_set l i m m' : nth_error l i = Some m -> later m m' -> grows l (set_nth l i m').
Proof.
  intros N L. destruct (set_nth_split _ _ _ N m') as (a & b & -> & -> & _).
  exists (a ++ m' :: b), []. split; [now rewrite app_nil_r|].
  apply Forall2_app; [apply later_refl|]. constructor; [exact L|apply later_refl].
Qed.

Lemma subprocess_grows c a w w' r : subprocess c a w = (w', r) -> grows (mps w) (mps w').
Proof.
  unfold subprocess. destruct (has_multiprocessing c);
    [intros H; apply fallback_fks in H as [-> _]; apply grows_refl|].
  destruct (ctor a); [|intros H; apply fallback_fks in H as [-> _]; apply grows_refl].
  destruct (start a); [intros [= <- <-]; apply grows_snoc|].
  intros H. apply fallback_fks in H as [-> _]. apply grows_snoc.
Qed.

Lemma step_grows c o w w' r : step c o w = (w', r) -> grows (mps w) (mps w').
Proof.
  destruct o as [a|a| |b|b|i|n|i|n|n s]; cbn [step];
    try (intros [= <- <-]; apply grows_refl).
  - apply subprocess_grows.
  - unfold show_and_continue. destruct (has_matplot c); [intros [= <- <-]; apply grows_refl|].
    destruct (subprocess c a w) as [w1 r1] eqn:S. apply subprocess_grows in S.
    destruct r1; intros [= <- <-]; exact S.
  - intros H. apply kill_all_fks in H as [-> _]. apply grows_refl.
  - unfold close_mp. destruct (nth_error (mps w) i) as [m|] eqn:N; [|intros [= <- <-]; apply grows_refl].
    destruct m; intros [= <- <-]; try apply grows_refl; cbn [mps];
      (eapply grows_set; [exact N|]); right; now right.
  - destruct (is_fork n w && _); intros [= <- <-]; apply grows_refl.
  - unfold join_mp. destruct (nth_error (mps w) i) as [[|m| |]|] eqn:N;
      try (intros [= <- <-]; apply grows_refl).
    destruct (is_zombie m (table w)); intros [= <- <-]; [|apply grows_refl].
    cbn [mps]. eapply grows_set; [exact N|]. right. left. eauto.
Qed.

Lemma grows_trans a b c : grows a b -> grows b c -> grows a c.
Proof.
  intros (b1 & b2 & -> & F) (c1 & c2 & -> & G).
  apply Forall2_app_inv_l in G as (d1 & d2 & G1 & G2 & ->).
  exists d1, (d2 ++ c2). split; [now rewrite app_assoc|].
  clear - F G1. revert d1 G1. induction F as [|x y a b1 L F IH]; intros d1 G1; inversion G1; subst; constructor.
  - destruct H1 as [-> |[(n & -> & ->)| ->]]; [exact L| |right; now right].
    destruct L as [<-|[(k & -> & L)|L]]; [right; left; eauto|discriminate|discriminate].
  - now apply IH.
Qed.

Lemma runs_grows c w os w' rs : runs c w os w' rs -> grows (mps w) (mps w').
Proof.
  induction 1 as [|w o w1 r os w2 rs P S R IH]; [apply grows_refl|].
  eapply grows_trans; [eapply step_grows; exact S|exact IH].
Qed.

Lemma later_started l l' : Forall2 later l l' -> forall n, In n (started l') -> In n (started l).
Proof.
  induction 1 as [|x y l l' L F IH]; intros n H; [exact H|].
  change (started (x :: l)) with ((match x with MStarted n => [n] | _ => [] end) ++ started l).
  change (started (y :: l')) with ((match y with MStarted n => [n] | _ => [] end) ++ started l') in H.
  apply in_app_or in H. apply in_or_app. destruct H as [H|H]; [left|right; auto].
  destruct L as [-> |[(k & -> & ->)| ->]]; [exact H|destruct H|destruct H].
Qed.
