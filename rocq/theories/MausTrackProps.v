(** C75: tracking with MAUS. *)
From Coq Require Import Reals ZArith Bool String Lia Lra List.
From Verif Require Import Num HitcoreModel PyLibModel HitPyModel HitPySpec HitPyProofs TableModel IOModel IOSpec IOProofs
  MausModel MausSpec MausProofs MausReadProofs MausProps MausTrackModel MausTrackSpec MausTrackProofs.
Import ListNotations.
Open Scope list_scope.

(** The simulation is told of the given particles, in order; whatever comes of it, the seed
    moves on by the number of particles. *)
Theorem C75_fired sim run (c : RCtx) t hits t' doc r : track_many sim run c t hits = (t', doc, r) ->
  (exists js, doc = JList js /\ Forall2 fires js hits) /\
  seeds_in doc = consecutive (tr_seed t) (List.length hits) /\
  tr_seed t' = (tr_seed t + Z.of_nat (List.length hits))%Z.
Proof. intros M. apply many_spec in M. tauto. Qed.
Print Assumptions C75_fired.

(** In any program, the particles that a tracker fires have the seeds s, s+1, ..., from the one it
    was made with, one each. *)
Theorem C75_seeds sim (c : RCtx) p1 cards s p2 : exists n,
  seeds_fired (List.length (tw_trackers (trun sim c p1))) (tw_calls (trun sim c (p1 ++ TNew cards s :: p2))) =
  consecutive s n.
Proof.
  unfold trun. rewrite fold_left_app. cbn [fold_left]. fold (trun sim c p1).
  set (w := trun sim c p1). cbn [texec tracker_new].
  set (w1 := mkTWorld _ _ _).
  destruct (run_tracker sim c p2 w1 (List.length (tw_trackers w)) (mkTracker cards s 0 [])) as (t' & new & _ & E & _ & n & _ & F).
  - unfold w1. cbn [tw_trackers]. rewrite nth_error_app2, Nat.sub_diag by lia. reflexivity.
  - exists n. rewrite E, seeds_fired_app. unfold w1. cbn [tw_calls tr_seed] in *.
    unfold seeds_fired at 1. unfold w. rewrite no_calls_yet by lia. exact F.
Qed.
Print Assumptions C75_seeds.

Theorem C75_seeds_distinct s n : NoDup (consecutive s n).
Proof.
  unfold consecutive. apply FinFun.Injective_map_NoDup; [|apply seq_NoDup].
  intros a b [= E]. lia.
Qed.
Print Assumptions C75_seeds_distinct.

(** The hits of a call share a spill number, and a later call on the same tracker has a larger one. *)
Theorem C75_spills sim (c : RCtx) p i a b k k' r r' hs hs' h h' : small (List.length p) ->
  let calls := calls_on i (tw_calls (trun sim c p)) in
  nth_error calls a = Some k -> nth_error calls b = Some k' ->
  ca_result k = inr r -> ca_result k' = inr r' -> In hs r -> In h hs -> In hs' r' -> In h' hs' ->
  (a = b -> h_int h Ispill = h_int h' Ispill) /\ ((a < b)%nat -> (h_int h Ispill < h_int h' Ispill)%Z).
Proof.
  intros L calls N1 N2 E1 E2 I1 I2 I3 I4.
  destruct (counted_run sim c p L) as (U & F & D). split.
  - intros ->. rewrite N1 in N2. injection N2 as <-. rewrite E1 in E2. injection E2 as <-.
    assert (I : In k (tw_calls (trun sim c p))).
    { apply nth_error_In in N1. unfold calls, calls_on in N1. apply filter_In in N1. tauto. }
    exact (U k I r hs h hs' h' E1 I1 I2 I3 I4).
  - intros LT. destruct (nth_error (tw_trackers (trun sim c p)) i) as [t|] eqn:T.
    + destruct (D i t T) as (_ & _ & R0). eapply (R0 a b); eauto.
    + apply nth_error_None in T. specialize (F i T). unfold calls in N1. rewrite F in N1. destruct a; discriminate.
Qed.
Print Assumptions C75_spills.

(** The result: one list for every event, first the primary, then the crossings. *)
Theorem C75_events sim run (c : RCtx) t hits evs es t' doc r :
  track_many sim run c t hits = (t', doc, r) -> sim run doc = inr (JList evs) ->
  int32 (tr_spill t) -> small (List.length es) -> Forall sound es -> Forall2 tells_event evs es ->
  r = inr (map (out_event (tr_spill t)) (number 0 es)) /\
  t' = mkTracker (tr_cards t) (tr_seed t + Z.of_nat (List.length hits)) (tr_spill t + 1)
         (map (out_event (tr_spill t)) (number 0 es)).
Proof.
  intros M S I L F T. pose proof M as M0. apply many_spec in M0. destruct M0 as (A & B & _ & (js & -> & _) & D).
  unfold track_many in M. destruct (to_primaries c (tr_seed t) hits) as [s' js'].
  cbv zeta in M. assert (EJ : js' = js).
  { destruct (sim run (JList js')) as [e|[v|s|l|d]]; try congruence.
    destruct (enumerate_events _ _ _ l); congruence. }
  subst js'. rewrite S in M. change 0%Z with (Z.of_nat 0) in M. rewrite (events_ok c _ evs es I F T 0 L) in M.
  injection M as <- <-. cbn in B. subst s'. auto.
Qed.
Print Assumptions C75_events.

(** What is given back of a particle that was fired is the particle, with the mass and charge of
    its kind. *)
Theorem C75_first spill ev h hs :
  (forall v, In v [Vx; Vy; Vz; Vt; Vpx; Vpy; Vpz; Venergy] ->
     h_dbl (hd h (out_event spill (ev, mkEvent hs h))) v = h_dbl h v) /\
  (physical h -> on_shell (hd h (out_event spill (ev, mkEvent hs h)))) /\
  Forall (fun g => on_shell g /\ 0 <= h_dbl g Venergy)%R (tl (out_event spill (ev, mkEvent hs h))).
Proof.
  split; [|split].
  - intros v I. cbn in I. cbn [out_event hd fst snd ev_primary]. repeat (destruct I as [<- | I]; [reflexivity|]). destruct I.
  - intros (M & S & _). unfold on_shell in *. cbn. unfold gd in *. cbn. rewrite <- M. exact S.
  - cbn [out_event tl fst snd ev_hits]. apply Forall_map, Forall_forall. intros g _. split.
    + unfold on_shell. cbn. unfold gd. cbn.
      rewrite sqrt_sqrt; [unfold momentum_squared; toR; ring|].
      unfold momentum_squared. nra.
    + cbn. apply sqrt_pos.
Qed.
Print Assumptions C75_first.

(** A call that raises an exception has used up the seeds, and is not counted as a spill. *)
Theorem C75_failed sim run (c : RCtx) t hits t' doc e : track_many sim run c t hits = (t', doc, inl e) ->
  t' = mkTracker (tr_cards t) (tr_seed t + Z.of_nat (List.length hits)) (tr_spill t) (tr_last t).
Proof. intros M. apply many_spec in M. destruct t'. cbn in M. destruct M as (-> & -> & _ & _ & -> & ->). reflexivity. Qed.
Print Assumptions C75_failed.

(** One particle without an entry in the tables, among all that cross a plane: KeyError, and
    nothing is returned. *)
Theorem C75_unknown sim run (c : RCtx) t hits t' doc r evs1 es1 j evs2 p hp vs1 v vs2 hs1 h :
  track_many sim run c t hits = (t', doc, r) -> sim run doc = inr (JList (evs1 ++ j :: evs2)) ->
  int32 (tr_spill t) -> small (List.length es1) -> Forall sound es1 -> Forall2 tells_event evs1 es1 ->
  under j ["primary"%string] = Some p -> tells_primary p hp -> ints32 hp -> in_tables (h_int hp Ipid) ->
  under j ["virtual_hits"%string] = Some (JList (vs1 ++ v :: vs2)) -> Forall2 tells_crossing vs1 hs1 ->
  Forall (fun h => ints32 h /\ in_tables (h_int h Ipid)) hs1 ->
  tells_crossing v h -> ints32 h -> ~ in_tables (h_int h Ipid) ->
  r = inl MKey.
Proof.
  intros M S I L F T P TP P32 PT V TV FV TH H32 NT.
  pose proof M as M0. apply many_spec in M0. destruct M0 as (_ & _ & _ & (js & -> & _) & _).
  unfold track_many in M. destruct (to_primaries c (tr_seed t) hits) as [s' js'].
  cbv zeta in M. assert (EJ : js' = js).
  { destruct (sim run (JList js')) as [e|[w|s|l|d]]; try congruence.
    destruct (enumerate_events _ _ _ l); congruence. }
  subst js'. rewrite S in M. change 0%Z with (Z.of_nat 0) in M.
  rewrite (events_unknown c (tr_spill t) evs1 es1 j evs2 I F T) in M; auto; [congruence|].
  intros ev E32. eapply event_unknown; eauto.
Qed.
Print Assumptions C75_unknown.

(** A copy goes on exactly where the original is: the same calls give the same results, and the
    same seeds. *)
Theorem C75_copy sim (c : RCtx) p i fs : (i < List.length (tw_trackers (trun sim c p)))%nat ->
  let start := trun sim c (p ++ [TCopy i]) in
  let j := List.length (tw_trackers (trun sim c p)) in
  exists new new',
    tw_calls (trun sim c (p ++ [TCopy i] ++ map (on i) fs)) = tw_calls start ++ new /\
    tw_calls (trun sim c (p ++ [TCopy i] ++ map (on j) fs)) = tw_calls start ++ new' /\
    map seen new = map seen new' /\ List.length new = List.length fs /\
    Forall (fun k => ca_tracker k = j) new'.
Proof.
  intros L start j. destruct (nth_error (tw_trackers (trun sim c p)) i) as [t|] eqn:T.
  2: { apply nth_error_None in T. lia. }
  unfold start, trun. rewrite !app_assoc, !fold_left_app. fold (trun sim c p). cbn [fold_left].
  destruct (same_calls sim c fs (texec sim c (trun sim c p) (TCopy i)) (texec sim c (trun sim c p) (TCopy i)) i j t)
    as (new & new' & A & B & D & _ & E & G); auto.
  - cbn [texec]. rewrite T. unfold tracker_copy, tracker_new. cbn [tw_trackers]. rewrite nth_error_app1 by auto. exact T.
  - cbn [texec]. rewrite T. unfold tracker_copy, tracker_new. cbn [tw_trackers]. unfold j.
    rewrite nth_error_app2, Nat.sub_diag by lia. cbn. destruct t. reflexivity.
  - exists new, new'. auto.
Qed.
Print Assumptions C75_copy.

(** So that copies fire particles with the seeds of one another. *)
Definition echo : Simulation := fun _ doc => inr doc.
Theorem C75_copies_refuted (c : RCtx) :
  ~ (forall sim p i j x, i <> j -> In x (seeds_fired i (tw_calls (trun sim c p))) ->
     In x (seeds_fired j (tw_calls (trun sim c p))) -> False).
Proof.
  intros H. apply (H echo [TNew None 7%Z; TCopy 0; TMany 0 [electron 0 1]; TMany 1 [electron 0 1]] 0%nat 1%nat (Some 7%Z)).
  - discriminate.
  - left. reflexivity.
  - left. reflexivity.
Qed.
Print Assumptions C75_copies_refuted.

(** With one set of cards in the program, a tracker that was given cards runs with them. *)
Theorem C75_cards sim (c : RCtx) d p k t : Forall (one_deck d) p -> In k (tw_calls (trun sim c p)) ->
  nth_error (tw_trackers (trun sim c p)) (ca_tracker k) = Some t -> tr_cards t = Some d -> ca_running k = Some d.
Proof. intros F I T E. destruct (runs_run sim c d p F) as (_ & _ & C & _). eauto. Qed.
Print Assumptions C75_cards.

(** With two, it runs with those of the other. *)
Theorem C75_cards_refuted (c : RCtx) :
  ~ (forall sim p k t d, In k (tw_calls (trun sim c p)) ->
     nth_error (tw_trackers (trun sim c p)) (ca_tracker k) = Some t -> tr_cards t = Some d -> ca_running k = Some d).
Proof.
  intros H.
  specialize (H echo [TNew (Some (JStr "a")) 0%Z; TNew (Some (JStr "b")) 0%Z; TMany 0 []]
    (mkCall 0 (Some (JStr "b")) (JList []) (inr [])) (mkTracker (Some (JStr "a")) 0 1 []) (JStr "a")).
  cbn in H. specialize (H (or_introl eq_refl) eq_refl eq_refl). discriminate H.
Qed.
Print Assumptions C75_cards_refuted.

(** ---- examples ---- *)

(** A simulation that sends every particle through one plane. *)
Definition crossing_doc (x : R) (pid : Z) : Json :=
  JDict [("position", JDict [("x", num x); ("y", num 0); ("z", num 1000)]);
         ("momentum", JDict [("x", num 0); ("y", num 0); ("z", num 200)]);
         ("particle_id", int pid); ("time", num 3); ("track_id", int 1); ("station_id", int 5)]%string.
Definition one_plane (x : R) (pid : Z) : Simulation := fun _ doc =>
  match doc with
  | JList js => inr (JList (map (fun j => match j with
      | JDict d => JDict (d ++ [("virtual_hits"%string, JList [crossing_doc x pid])])
      | j => j end) js))
  | _ => inl MType
  end.
Definition crossing_hit (x : R) (pid : Z) : RHit :=
  @mkHit RNum (fun v => match v with Vx => x | Vz => 1000 | Vpz => 200 | Vt => 3 | _ => 0 end)%R
    (fun i => match i with Ipid => pid | Iparticle => 1 | Istation => 5 | _ => 0 end)%Z.

Lemma crossing_told x pid : tells_crossing (crossing_doc x pid) (crossing_hit x pid).
Proof. repeat split; reflexivity. Qed.
Lemma electron_known : in_tables 11.
Proof. split; [exists 0.510998910%R | exists (-1)%Z]; reflexivity. Qed.

Example C75_events_ex (c : RCtx) x : exists t' doc,
  track_many (one_plane x 11) None c (mkTracker None 40 3 []) [electron 0 1; electron 0 1] =
  (t', doc, inr [ [out_primary 3 0 (electron 0 1); out_crossing 3 0 (crossing_hit x 11)];
                  [out_primary 3 1 (electron 0 1); out_crossing 3 1 (crossing_hit x 11)] ]) /\
  seeds_in doc = [Some 40; Some 41]%Z /\ tr_seed t' = 42%Z /\ tr_spill t' = 4%Z.
Proof.
  set (es := [mkEvent [crossing_hit x 11] (electron 0 1); mkEvent [crossing_hit x 11] (electron 0 1)]).
  destruct (track_many (one_plane x 11) None c (mkTracker None 40 3 []) [electron 0 1; electron 0 1]) as [[t' doc] r] eqn:M.
  assert (S : exists evs, one_plane x 11 None doc = inr (JList evs) /\ Forall2 tells_event evs es).
  { pose proof (many_doc _ _ _ _ _ _ _ _ M) as D. cbn [tr_seed] in D.
    subst doc. eexists. split; [reflexivity|]. unfold es.
    repeat (constructor; [split; [eexists; split; [reflexivity|repeat split; reflexivity]|]|]).
    - eexists. split; [reflexivity|]. constructor; [apply crossing_told|constructor].
    - eexists. split; [reflexivity|]. constructor; [apply crossing_told|constructor].
    - constructor. }
  destruct S as (evs & S & T).
  destruct (C75_events _ _ c _ _ evs es t' doc r M S) as (A & B).
  - unfold int32. cbn. lia.
  - unfold small. cbn. lia.
  - assert (H : sound (mkEvent [crossing_hit x 11] (electron 0 1))).
    { split; [apply electron_ints|]. split; [exact electron_known|]. constructor; [|constructor].
      split; [intros []; cbn; lia|exact electron_known]. }
    unfold es. auto.
  - exact T.
  - exists t', doc. destruct (C75_fired _ _ c _ _ _ _ _ M) as (_ & D & _). rewrite A. split; [reflexivity|].
    split; [exact D|]. rewrite B. split; reflexivity.
Qed.

(** Anti-kaons have a mass in the tables, but no charge. *)
Example C75_unknown_ex : (exists m, zassoc pdg_pid_to_mass (Z.abs (-311)) = Some m) /\ ~ in_tables (-311).
Proof. split; [eexists; reflexivity|]. intros (_ & q & Q). discriminate Q. Qed.
Example C75_unknown_call (c : RCtx) x :
  snd (track_many (one_plane x (-311)) None c (mkTracker None 40 3 []) [electron 0 1]) = inl MKey.
Proof.
  destruct (track_many _ _ _ _ _) as [[t' doc] r] eqn:M.
  pose proof (many_doc _ _ _ _ _ _ _ _ M) as D. cbn [tr_seed] in D.
  cbn [snd]. eapply (C75_unknown _ _ c _ _ t' doc r [] [] _ [] _ (electron 0 1) [] _ [] [] (crossing_hit x (-311)) M).
  - rewrite D. reflexivity.
  - unfold int32. cbn. lia.
  - unfold small. cbn. lia.
  - constructor.
  - constructor.
  - reflexivity.
  - repeat split; reflexivity.
  - apply electron_ints.
  - exact electron_known.
  - reflexivity.
  - constructor.
  - constructor.
  - apply crossing_told.
  - intros []; cbn; lia.
  - exact (proj2 C75_unknown_ex).
Qed.

Example C75_seeds_ex (c : RCtx) :
  seeds_fired 1 (tw_calls (trun echo c [TNew None 0; TNew None 7; TMany 1 [electron 0 1; electron 0 1]; TOne 0 (electron 0 1);
    TOne 1 (electron 0 1)]))%Z = [Some 7; Some 8; Some 9]%Z.
Proof. reflexivity. Qed.
Example C75_spills_ex (c : RCtx) x :
  map (fun k => match ca_result k with inl _ => None | inr r => Some (map (fun h => h_int h Ispill) (concat r)) end)
    (calls_on 0 (tw_calls (trun (one_plane x 11) c [TNew None 0%Z; TOne 0 (electron 0 1); TMany 0 [electron 0 1]]))) =
  [Some [0; 0]; Some [1; 1]]%Z.
Proof. reflexivity. Qed.
Example C75_cards_ex : Forall (one_deck (JStr "a")) [TNew (Some (JStr "a")) 0; TNew None 5; TCopy 0; TMany 0 []]%Z.
Proof. repeat (constructor; [cbn; auto|]). constructor. Qed.
