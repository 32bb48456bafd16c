(** Proofs for tracking with MAUS. *)
From Coq Require Import Reals ZArith Bool String Lia Lra List.
From Verif Require Import Num HitcoreModel HitcoreSpec HitcoreProofs PyLibModel PyLibProofs HitPyModel HitPySpec
  HitPyProofs TableModel IOModel IOSpec IOProofs CommonModel MausModel MausSpec MausProofs MausReadProofs
  MausTrackModel MausTrackSpec.
Import ListNotations.
Open Scope list_scope.

Arguments in_long : simpl never.
Arguments wrap32 : simpl never.
Arguments mass_for : simpl never.
Arguments charge_for : simpl never.
Arguments mass_shell : simpl never.
Arguments py_set : simpl never.
Arguments hit_set_dbl : simpl never.
Arguments hit_set_int : simpl never.
Arguments hit_new : simpl never.

Lemma jget_under j k v : under j [k] = Some v -> jget j k = inr v.
Proof.
  unfold jget. cbn. destruct j as [| | |d]; try discriminate. destruct (assoc d k); [|discriminate].
  intros [= ->]. reflexivity.
Qed.
Lemma jget2_under j k k' v : under j [k; k'] = Some v -> jget2 j k k' = inr v.
Proof.
  unfold jget2, jget. cbn. destruct j as [| | |d]; try discriminate. destruct (assoc d k) as [j'|]; [|discriminate].
  destruct j' as [| | |d']; try discriminate. destruct (assoc d' k'); [|discriminate]. intros [= ->]. reflexivity.
Qed.

Lemma mass_entry_ok pid : in_tables pid -> mass_entry (PInt pid) = inr (fl (mass_for pid)).
Proof. intros ((m & M) & _). unfold mass_entry, mass_for. rewrite M. reflexivity. Qed.
Lemma charge_entry_ok pid : in_tables pid -> exists q, charge_entry (PInt pid) = inr (PInt q) /\
  forall (h : RHit) c, py_set (h, c) "charge" (PInt q) = ((hit_set_dbl h Vcharge (charge_for pid : RNum), c), None).
Proof.
  intros (_ & (q & Q)). unfold charge_entry, charge_for. rewrite Q. exists q. split; auto.
Qed.

Lemma vectors_told j h : tells j h -> vectors j =
  [("x", inr (fl (h_dbl h Vx))); ("px", inr (fl (h_dbl h Vpx))); ("y", inr (fl (h_dbl h Vy)));
   ("py", inr (fl (h_dbl h Vpy))); ("z", inr (fl (h_dbl h Vz))); ("pz", inr (fl (h_dbl h Vpz)))]%string.
Proof.
  intros (A & B & C & D & E & F & _). unfold vectors. cbn [flat_map app].
  rewrite (jget2_under _ _ _ _ A), (jget2_under _ _ _ _ B), (jget2_under _ _ _ _ C), (jget2_under _ _ _ _ D),
    (jget2_under _ _ _ _ E), (jget2_under _ _ _ _ F). reflexivity.
Qed.

Lemma primary_ok (c : RCtx) spill ev j h : int32 spill -> int32 ev -> ints32 h -> in_tables (h_int h Ipid) ->
  tells_primary j h -> primary_to_hit c spill ev 1 j = inr (out_primary spill ev h).
Proof.
  intros S32 E32 H32 T (A & B). pose proof A as (_ & _ & _ & _ & _ & _ & C & D).
  unfold primary_to_hit. rewrite (jget_under _ _ _ D), (jget_under _ _ _ C), (jget_under _ _ _ B), (vectors_told _ _ A).
  pose proof (H32 Ipid) as P32.
  cbn [to_val int num num_of app]. rewrite (mass_entry_ok _ T).
  destruct (charge_entry_ok _ T) as (q & -> & Q).
  assert (O1 : int32 1) by (unfold int32; lia). assert (O2 : int32 (-1)) by (unfold int32; lia).
  cbn [set_each]. unfold fl.
  repeat (match goal with
  | |- context[py_set (?h, ?c) "charge" (PInt ?z)] => rewrite (Q h c)
  | |- context[py_set (?h, ?c) ?k (PFloat ?x)] => erewrite (pset_dbl h c k _ x) by reflexivity
  | |- context[py_set (?h, ?c) ?k (PInt ?z)] => erewrite (pset_int h c k _ z) by (first [reflexivity | assumption | auto])
  end; cbv beta iota).
  cbn [fst]. f_equal. apply hit_eq; intros v; destruct v; reflexivity.
Qed.

Lemma crossing_ok (c : RCtx) spill ev j h : int32 spill -> int32 ev -> ints32 h -> in_tables (h_int h Ipid) ->
  tells_crossing j h -> virtual_to_hit c spill ev j = inr (out_crossing spill ev h).
Proof.
  intros S32 E32 H32 T (A & B & B'). pose proof A as (_ & _ & _ & _ & _ & _ & C & D).
  unfold virtual_to_hit. rewrite (jget_under _ _ _ D), (jget_under _ _ _ C), (jget_under _ _ _ B), (jget_under _ _ _ B'),
    (vectors_told _ _ A).
  pose proof (H32 Ipid) as P32. pose proof (H32 Iparticle) as Q32. pose proof (H32 Istation) as R32.
  cbn [to_val int num num_of app]. rewrite (mass_entry_ok _ T).
  destruct (charge_entry_ok _ T) as (q & -> & Q).
  cbn [set_each]. unfold fl.
  repeat (match goal with
  | |- context[py_set (?h, ?c) "charge" (PInt ?z)] => rewrite (Q h c)
  | |- context[py_set (?h, ?c) ?k (PFloat ?x)] => erewrite (pset_dbl h c k _ x) by reflexivity
  | |- context[py_set (?h, ?c) ?k (PInt ?z)] => erewrite (pset_int h c k _ z) by (first [reflexivity | assumption | auto])
  end; cbv beta iota).
  cbn [fst]. unfold mass_shell. cbn [String.eqb Ascii.eqb Bool.eqb ms_err]. f_equal. apply hit_eq.
  - intros v. destruct v; try reflexivity.
    unfold out_crossing, momentum_squared. cbn -[sqrt]. apply (f_equal sqrt). unfold gd, sd, hit_set_dbl, hit_set_int. cbn. rring.
  - intros v. destruct v; reflexivity.
Qed.

Lemma event_ok (c : RCtx) spill ev j e : int32 spill -> small ev -> sound e -> tells_event j e ->
  event_to_hits c spill (Z.of_nat ev) j = inr (out_event spill (ev, e)).
Proof.
  intros S32 E32 (A & B & F) ((p & P & TP) & (vs & V & TV)). apply small32 in E32.
  unfold event_to_hits. rewrite (jget_under _ _ _ P), (primary_ok c spill _ p _ S32 E32 A B TP), (jget_under _ _ _ V).
  assert (G : all_or (map (virtual_to_hit c spill (Z.of_nat ev)) vs) =
              inr (map (out_crossing spill (Z.of_nat ev)) (ev_hits e))).
  { clear V. revert F. induction TV as [|v h vs hs T TV IH]; intros F; [reflexivity|].
    inversion F as [|? ? (H1 & H2) F']; subst. cbn [map all_or]. rewrite (crossing_ok c spill _ v h); auto.
    rewrite IH; auto. }
  rewrite G. reflexivity.
Qed.

Lemma events_ok (c : RCtx) spill evs es : int32 spill -> Forall sound es -> Forall2 tells_event evs es ->
  forall ev, small (ev + List.length es) ->
  enumerate_events c spill (Z.of_nat ev) evs = inr (map (out_event spill) (number ev es)).
Proof.
  intros S32 F T. induction T as [|j e evs es T1 T IH]; intros ev L; [reflexivity|].
  inversion F; subst. cbn [enumerate_events number map List.length] in *.
  rewrite (event_ok c spill ev j e) by (auto; unfold small in *; lia).
  replace (Z.of_nat ev + 1)%Z with (Z.of_nat (S ev)) by lia.
  rewrite IH by (auto; unfold small in *; lia). reflexivity.
Qed.

Lemma to_primaries_seed c hits : forall s, fst (to_primaries c s hits) = (s + Z.of_nat (List.length hits))%Z.
Proof.
  induction hits as [|h r IH]; intros s; cbn [to_primaries List.length]; [cbn; lia|].
  specialize (IH (s + 1)%Z). destruct (to_primaries c (s + 1) r). cbn [fst] in *. lia.
Qed.
Lemma consecutive_cons s n : consecutive s (S n) = Some s :: consecutive (s + 1) n.
Proof.
  unfold consecutive. cbn [seq map]. f_equal; [f_equal; lia|]. rewrite <- seq_shift, map_map.
  apply map_ext. intros k. f_equal. lia.
Qed.
Lemma consecutive_app s n m : consecutive s (n + m) = consecutive s n ++ consecutive (s + Z.of_nat n) m.
Proof.
  revert s. induction n as [|n IH]; intros s; [cbn [plus app]; replace (s + Z.of_nat 0)%Z with s by lia; reflexivity|].
  cbn [plus]. rewrite !consecutive_cons, IH. cbn [app].
  replace (s + Z.of_nat (S n))%Z with (s + 1 + Z.of_nat n)%Z by lia. reflexivity.
Qed.
Lemma seeds_primaries c hits : forall s, seeds_in (JList (snd (to_primaries c s hits))) = consecutive s (List.length hits).
Proof.
  induction hits as [|h r IH]; intros s; [reflexivity|].
  cbn [to_primaries List.length]. rewrite consecutive_cons. specialize (IH (s + 1)%Z).
  destruct (to_primaries c (s + 1) r) as [s' js]. cbn [snd seeds_in map] in *. rewrite IH. reflexivity.
Qed.
Lemma primaries_fire c hits : forall s, Forall2 fires (snd (to_primaries c s hits)) hits.
Proof.
  induction hits as [|h r IH]; intros s; [constructor|].
  cbn [to_primaries]. specialize (IH (s + 1)%Z). destruct (to_primaries c (s + 1) r) as [s' js]. cbn [snd] in *.
  constructor; auto. unfold hit_to_primary. eexists. split; [reflexivity|].
  repeat split; reflexivity.
Qed.

(** One call. *)
Lemma many_spec sim run c t hits t' doc r : track_many sim run c t hits = (t', doc, r) ->
  tr_cards t' = tr_cards t /\ tr_seed t' = (tr_seed t + Z.of_nat (List.length hits))%Z /\
  seeds_in doc = consecutive (tr_seed t) (List.length hits) /\
  (exists js, doc = JList js /\ Forall2 fires js hits) /\
  match r with
  | inl _ => tr_spill t' = tr_spill t /\ tr_last t' = tr_last t
  | inr l => tr_spill t' = (tr_spill t + 1)%Z /\ tr_last t' = l /\
      exists evs, sim run doc = inr (JList evs) /\ enumerate_events c (tr_spill t) 0 evs = inr l
  end.
Proof.
  unfold track_many. pose proof (to_primaries_seed c hits (tr_seed t)) as A.
  pose proof (seeds_primaries c hits (tr_seed t)) as B. pose proof (primaries_fire c hits (tr_seed t)) as D.
  destruct (to_primaries c (tr_seed t) hits) as [s' js]. cbn [fst snd] in *. cbv zeta. subst s'.
  assert (G : exists js0, JList js = JList js0 /\ Forall2 fires js0 hits) by eauto.
  destruct (sim run (JList js)) as [e|[v|s|evs|d]] eqn:S; intros E.
  5: injection E as <- <- <-; cbn; auto 10.
  1-3: injection E as <- <- <-; cbn; auto 10.
  destruct (enumerate_events c (tr_spill t) 0 evs) as [e|l] eqn:EE; injection E as <- <- <-; cbn; auto 10.
  repeat (split; auto). eauto.
Qed.

Lemma many_doc sim run c t hits t' doc r : track_many sim run c t hits = (t', doc, r) ->
  doc = JList (snd (to_primaries c (tr_seed t) hits)).
Proof.
  unfold track_many. destruct (to_primaries c (tr_seed t) hits) as [s js]. cbv zeta. cbn [snd].
  destruct (sim run (JList js)) as [e|[v|u|l|d]]; try congruence. destruct (enumerate_events _ _ _ l); congruence.
Qed.
Lemma one_many sim run c t h : track_one sim run c t h =
  let '(t', doc, r) := track_many sim run c t [h] in
  (t', doc, match r with inl e => inl e | inr [] => inl MIndex | inr (l :: _) => inr l end).
Proof. reflexivity. Qed.

(** All hits of a call carry its spill number. *)
Lemma station_spill (h : RHit) (c : RCtx) v s' : py_set (h, c) "station" v = (s', None) ->
  h_int (fst s') Ispill = h_int h Ispill.
Proof.
  unfold py_set, core_set. cbn [fst snd]. replace (assoc set_dbl_map "station") with (@None DblKey) by reflexivity.
  replace (assoc set_int_map "station") with (Some Istation) by reflexivity.
  destruct (as_double v) as [x o1]. destruct (as_int v) as [z o2]. cbn [snd].
  destruct (o1 && o2)%bool; [|cbn; discriminate].
  intros [= <-]. cbn [fst]. unfold hit_set_int. cbn. reflexivity.
Qed.
Lemma set_each_app l1 l2 : forall s h, set_each s (l1 ++ l2) = inr h ->
  exists s', set_each s' l2 = inr h.
Proof.
  induction l1 as [|[k [e|v]] r IH]; intros s h; cbn [app set_each]; eauto; [discriminate|].
  destruct (py_set s k v) as [s' [e|]]; [discriminate|]. eauto.
Qed.
Lemma tail_spill spill v s h : int32 spill ->
  set_each s [("spill"%string, inr (PInt spill)); ("station"%string, v)] = inr h -> h_int h Ispill = spill.
Proof.
  intros S32. cbn [set_each]. destruct s as [h0 c].
  rewrite (pset_int h0 c "spill" Ispill spill) by auto.
  destruct v as [e|v]; [discriminate|].
  destruct (py_set _ "station" v) as [s' [e|]] eqn:P; [discriminate|].
  apply station_spill in P. intros [= <-]. rewrite P. reflexivity.
Qed.
Lemma primary_spill (c : RCtx) spill ev n j h : int32 spill -> primary_to_hit c spill ev n j = inr h ->
  h_int h Ispill = spill.
Proof.
  intros S32. unfold primary_to_hit. destruct (jget j "particle_id") as [e|p]; [discriminate|].
  match goal with |- set_each _ (?a ++ [?b1; ?b2; ?b3; ?b4; ?b5; ?b6; ?b7; ?b8; ?b9]) = _ -> _ =>
    change (a ++ [b1; b2; b3; b4; b5; b6; b7; b8; b9]) with (a ++ ([b1; b2; b3; b4; b5; b6; b7] ++ [b8; b9])) end.
  rewrite app_assoc. intros E. apply set_each_app in E. destruct E as (s & E). eapply tail_spill; eauto.
Qed.
Lemma crossing_spill (c : RCtx) spill ev j h : int32 spill -> virtual_to_hit c spill ev j = inr h ->
  h_int h Ispill = spill.
Proof.
  intros S32. unfold virtual_to_hit. destruct (jget j "particle_id") as [e|p]; [discriminate|].
  destruct (set_each _ _) as [e|h0] eqn:E; [discriminate|].
  match type of E with set_each _ (?a ++ [?b1; ?b2; ?b3; ?b4; ?b5; ?b6; ?b8; ?b9]) = _ =>
    change (a ++ [b1; b2; b3; b4; b5; b6; b8; b9]) with (a ++ ([b1; b2; b3; b4; b5; b6] ++ [b8; b9])) in E end.
  rewrite app_assoc in E. apply set_each_app in E. destruct E as (s & E). apply tail_spill in E; auto.
  unfold mass_shell. cbn [String.eqb Ascii.eqb Bool.eqb ms_err]. intros [= <-]. exact E.
Qed.
Lemma all_or_in {A B} (f : A -> MErr + B) l hs : all_or (map f l) = inr hs ->
  forall h, In h hs -> exists a, In a l /\ f a = inr h.
Proof.
  revert hs. induction l as [|a l IH]; intros hs; cbn [map all_or]; [intros [= <-] h []|].
  destruct (f a) as [e|b] eqn:Fa; [discriminate|]. destruct (all_or (map f l)) as [e|r]; [discriminate|].
  intros [= <-] h [<-|I]; [exists a; simpl; auto|]. destruct (IH r eq_refl h I) as (a' & I' & E'). exists a'. simpl; auto.
Qed.
Lemma event_spill (c : RCtx) spill ev j hs : int32 spill -> event_to_hits c spill ev j = inr hs ->
  Forall (fun h => h_int h Ispill = spill) hs.
Proof.
  intros S32. unfold event_to_hits. destruct (jget j "primary") as [e|p]; [discriminate|].
  destruct (primary_to_hit c spill ev 1 p) as [e|h] eqn:P; [discriminate|].
  apply primary_spill in P; auto.
  destruct (jget j "virtual_hits") as [e|[v|s|vs|d]]; try discriminate.
  - intros [= <-]. auto.
  - destruct (all_or _) as [e|l] eqn:A; [discriminate|]. intros [= <-]. constructor; auto.
    apply Forall_forall. intros x I. destruct (all_or_in _ _ _ A x I) as (a & _ & E).
    eapply crossing_spill; eauto.
Qed.
Lemma events_spill (c : RCtx) spill evs : int32 spill -> forall ev l, enumerate_events c spill ev evs = inr l ->
  Forall (Forall (fun h => h_int h Ispill = spill)) l.
Proof.
  intros S32. induction evs as [|e r IH]; intros ev l; cbn [enumerate_events]; [intros [= <-]; auto|].
  destruct (event_to_hits c spill ev e) as [err|hs] eqn:E; [discriminate|].
  destruct (enumerate_events c spill (ev + 1) r) as [err|l'] eqn:F; [discriminate|]. intros [= <-].
  constructor; eauto. eapply event_spill; eauto.
Qed.

(** ---- histories ---- *)
Lemma set_nth_seed (ts : list Tracker) i t : nth_error ts i <> None -> nth_error (set_nth ts i t) i = Some t.
Proof. intros H. apply nth_set_nth_same. apply nth_error_Some. exact H. Qed.

Lemma calls_on_app i l l' : calls_on i (l ++ l') = calls_on i l ++ calls_on i l'.
Proof. apply filter_app. Qed.
Lemma seeds_fired_app i l l' : seeds_fired i (l ++ l') = seeds_fired i l ++ seeds_fired i l'.
Proof. unfold seeds_fired. rewrite calls_on_app, flat_map_app. reflexivity. Qed.

(** One statement, seen from tracker i. *)
Lemma step_tracker sim c w op i t : nth_error (tw_trackers w) i = Some t ->
  exists t' new, nth_error (tw_trackers (texec sim c w op)) i = Some t' /\
    tw_calls (texec sim c w op) = tw_calls w ++ new /\
    tr_cards t' = tr_cards t /\
    exists n, tr_seed t' = (tr_seed t + Z.of_nat n)%Z /\ seeds_fired i new = consecutive (tr_seed t) n.
Proof.
  intros T. destruct op as [cards seed|k hits|k h|k]; cbn [texec].
  - exists t, []. cbn. rewrite nth_error_app1 by (apply nth_error_Some; congruence). rewrite app_nil_r.
    repeat split; auto. exists 0%nat. split; [lia|reflexivity].
  - destruct (nth_error (tw_trackers w) k) as [tk|] eqn:K.
    2: { exists t, []. rewrite app_nil_r. repeat split; auto. exists 0%nat. split; [lia|reflexivity]. }
    destruct (track_many sim (tw_running w) c tk hits) as [[t' doc] r] eqn:M.
    apply many_spec in M. destruct M as (A & B & D & _). cbn [tw_trackers tw_calls].
    destruct (Nat.eq_dec k i) as [-> | N].
    + rewrite T in K. injection K as <-. exists t', [mkCall i (tw_running w) doc r].
      rewrite set_nth_seed by congruence. repeat split; auto. exists (List.length hits). split; auto.
      unfold seeds_fired, calls_on. cbn [filter ca_tracker]. rewrite Nat.eqb_refl. cbn. rewrite app_nil_r. exact D.
    + exists t, [mkCall k (tw_running w) doc r]. rewrite nth_set_nth_other by auto. repeat split; auto.
      exists 0%nat. split; [lia|]. unfold seeds_fired, calls_on. cbn [filter ca_tracker].
      apply Nat.eqb_neq in N. rewrite N. reflexivity.
  - destruct (nth_error (tw_trackers w) k) as [tk|] eqn:K.
    2: { exists t, []. rewrite app_nil_r. repeat split; auto. exists 0%nat. split; [lia|reflexivity]. }
    rewrite one_many. destruct (track_many sim (tw_running w) c tk [h]) as [[t' doc] r] eqn:M.
    apply many_spec in M. destruct M as (A & B & D & _). cbn [tw_trackers tw_calls].
    destruct (Nat.eq_dec k i) as [-> | N].
    + rewrite T in K. injection K as <-. eexists t', [mkCall i (tw_running w) doc _].
      rewrite set_nth_seed by congruence. repeat split; auto. exists 1%nat. split; auto.
      unfold seeds_fired, calls_on. cbn [filter ca_tracker]. rewrite Nat.eqb_refl. cbn [flat_map ca_given]. rewrite app_nil_r. exact D.
    + eexists t, [mkCall k (tw_running w) doc _]. rewrite nth_set_nth_other by auto. repeat split; auto.
      exists 0%nat. split; [lia|]. unfold seeds_fired, calls_on. cbn [filter ca_tracker].
      apply Nat.eqb_neq in N. rewrite N. reflexivity.
  - destruct (nth_error (tw_trackers w) k) as [tk|] eqn:K.
    2: { exists t, []. rewrite app_nil_r. repeat split; auto. exists 0%nat. split; [lia|reflexivity]. }
    unfold tracker_copy, tracker_new. cbn [tw_trackers tw_calls].
    exists t, []. rewrite nth_error_app1 by (apply nth_error_Some; congruence). rewrite app_nil_r.
    repeat split; auto. exists 0%nat. split; [lia|reflexivity].
Qed.

Lemma run_tracker sim c p : forall w i t, nth_error (tw_trackers w) i = Some t ->
  exists t' new, nth_error (tw_trackers (fold_left (texec sim c) p w)) i = Some t' /\
    tw_calls (fold_left (texec sim c) p w) = tw_calls w ++ new /\
    tr_cards t' = tr_cards t /\
    exists n, tr_seed t' = (tr_seed t + Z.of_nat n)%Z /\ seeds_fired i new = consecutive (tr_seed t) n.
Proof.
  induction p as [|op p IH]; intros w i t T; cbn [fold_left].
  - exists t, []. rewrite app_nil_r. repeat split; auto. exists 0%nat. split; [lia|reflexivity].
  - destruct (step_tracker sim c w op i t T) as (t1 & n1 & T1 & C1 & D1 & m1 & S1 & F1).
    destruct (IH _ i t1 T1) as (t2 & n2 & T2 & C2 & D2 & m2 & S2 & F2).
    exists t2, (n1 ++ n2). rewrite C2, C1, app_assoc. repeat split; auto; [congruence|].
    exists (m1 + m2)%nat. split; [lia|]. rewrite seeds_fired_app, F1, F2, S1, consecutive_app. reflexivity.
Qed.

Lemma no_calls_yet sim c p i : (List.length (tw_trackers (trun sim c p)) <= i)%nat ->
  calls_on i (tw_calls (trun sim c p)) = [].
Proof.
  unfold trun. rewrite <- fold_left_rev_right. induction (rev p) as [|op q IH]; cbn [fold_right]; [reflexivity|].
  set (w := fold_right _ _ _) in *.
  destruct op as [cards seed|k hits|k h|k]; cbn [texec].
  - cbn [tracker_new tw_trackers tw_calls]. rewrite app_length. cbn. intros L. apply IH. lia.
  - destruct (nth_error (tw_trackers w) k) as [tk|] eqn:K; auto.
    destruct (track_many _ _ _ _ _) as [[t' doc] r]. cbn [tw_trackers tw_calls]. rewrite set_nth_length. intros L.
    rewrite calls_on_app, IH by auto. cbn. replace (Nat.eqb k i) with false; auto.
    symmetry. apply Nat.eqb_neq. assert (k < List.length (tw_trackers w))%nat by (apply nth_error_Some; congruence). lia.
  - destruct (nth_error (tw_trackers w) k) as [tk|] eqn:K; auto.
    destruct (track_one _ _ _ _ _) as [[t' doc] r]. cbn [tw_trackers tw_calls]. rewrite set_nth_length. intros L.
    rewrite calls_on_app, IH by auto. cbn. replace (Nat.eqb k i) with false; auto.
    symmetry. apply Nat.eqb_neq. assert (k < List.length (tw_trackers w))%nat by (apply nth_error_Some; congruence). lia.
  - destruct (nth_error (tw_trackers w) k) as [tk|] eqn:K; auto.
    unfold tracker_copy, tracker_new. cbn [tw_trackers tw_calls]. rewrite app_length. cbn. intros L. apply IH. lia.
Qed.

(** Spills: the number of a tracker exceeds that of all hits it returned. *)
Definition below (i : nat) (s : Z) (l : list Call) : Prop :=
  forall k r hs h, In k (calls_on i l) -> ca_result k = inr r -> In hs r -> In h hs -> (h_int h Ispill < s)%Z.
Definition uniform (k : Call) : Prop :=
  forall r hs h hs' h', ca_result k = inr r -> In hs r -> In h hs -> In hs' r -> In h' hs' -> h_int h Ispill = h_int h' Ispill.
Definition rising (i : nat) (l : list Call) : Prop :=
  forall a b k k' r r' hs hs' h h', (a < b)%nat ->
    nth_error (calls_on i l) a = Some k -> nth_error (calls_on i l) b = Some k' ->
    ca_result k = inr r -> ca_result k' = inr r' -> In hs r -> In h hs -> In hs' r' -> In h' hs' ->
    (h_int h Ispill < h_int h' Ispill)%Z.
Definition carries (s : Z) (r : MErr + list (list RHit)) : Prop :=
  forall l hs h, r = inr l -> In hs l -> In h hs -> h_int h Ispill = s.
Definition counted (n : nat) (l : list Call) (ts : list Tracker) : Prop :=
  (forall k, In k l -> uniform k) /\
  (forall i, (List.length ts <= i)%nat -> calls_on i l = []) /\
  forall i t, nth_error ts i = Some t -> (0 <= tr_spill t <= Z.of_nat n)%Z /\ below i (tr_spill t) l /\ rising i l.

Lemma calls_on_self i l k : ca_tracker k = i -> calls_on i (l ++ [k]) = calls_on i l ++ [k].
Proof. intros <-. rewrite calls_on_app. cbn. rewrite Nat.eqb_refl. reflexivity. Qed.
Lemma calls_on_else i l k : ca_tracker k <> i -> calls_on i (l ++ [k]) = calls_on i l.
Proof. intros N. rewrite calls_on_app. cbn. apply Nat.eqb_neq in N. rewrite N. apply app_nil_r. Qed.

Lemma rising_snoc i l k s : ca_tracker k = i -> below i s l -> rising i l -> carries s (ca_result k) ->
  below i (s + 1) (l ++ [k]) /\ rising i (l ++ [k]).
Proof.
  intros K B D C. unfold below, rising. rewrite (calls_on_self i l k K). split.
  - intros k' r hs h I E I1 I2. apply in_app_or in I. destruct I as [I|[<-|[]]].
    + specialize (B k' r hs h I E I1 I2). lia.
    + rewrite (C r hs h E I1 I2). lia.
  - intros a b k1 k2 r r' hs hs' h h' L N1 N2 E1 E2 I1 I2 I3 I4.
    assert (Lb : (b < List.length (calls_on i l ++ [k]))%nat) by (apply nth_error_Some; congruence).
    rewrite app_length in Lb. cbn in Lb.
    rewrite nth_error_app1 in N1 by lia.
    destruct (Nat.eq_dec b (List.length (calls_on i l))) as [-> | Nb].
    + rewrite nth_error_app2, Nat.sub_diag in N2 by lia. cbn in N2. injection N2 as <-.
      rewrite (C r' hs' h' E2 I3 I4). apply (B k1 r hs h); auto. eapply nth_error_In; eauto.
    + rewrite nth_error_app1 in N2 by lia. eapply (D a b); eauto.
Qed.
Lemma carries_uniform s k : carries s (ca_result k) -> uniform k.
Proof. intros C r hs h hs' h' E I1 I2 I3 I4. rewrite (C r hs h E I1 I2), (C r hs' h' E I3 I4). reflexivity. Qed.
Lemma below_mono i s s' l : below i s l -> (s <= s')%Z -> below i s' l.
Proof. intros B L k r hs h I E I1 I2. specialize (B k r hs h I E I1 I2). lia. Qed.

Lemma counted_call n l ts i t t' k : nth_error ts i = Some t -> ca_tracker k = i -> counted n l ts ->
  carries (tr_spill t) (ca_result k) ->
  (tr_spill t' = tr_spill t + 1 \/ tr_spill t' = tr_spill t /\ (forall r, ca_result k <> inr r))%Z ->
  counted (S n) (l ++ [k]) (set_nth ts i t').
Proof.
  intros T K (U & F & D) C S. split; [|split].
  - intros k0 I. apply in_app_or in I. destruct I as [I|[<-|[]]]; auto. eapply carries_uniform; eauto.
  - rewrite set_nth_length. intros j L. rewrite calls_on_else; auto.
    assert (i < List.length ts)%nat by (apply nth_error_Some; congruence). lia.
  - intros j tj Tj. destruct (Nat.eq_dec i j) as [-> | N].
    + rewrite set_nth_seed in Tj by congruence. injection Tj as <-.
      destruct (D j t T) as (B1 & B2 & B3).
      destruct S as [S|(S & NR)].
      * rewrite S. split; [lia|]. apply rising_snoc; auto.
      * rewrite S. split; [lia|].
        destruct (rising_snoc j l k (tr_spill t) K B2 B3 C) as (_ & R2). split; auto.
        intros k' r hs h I E I1 I2. rewrite (calls_on_self j l k K) in I. apply in_app_or in I.
        destruct I as [I|[<-|[]]]; [eapply B2; eauto|]. exfalso. eapply NR; eauto.
    + rewrite nth_set_nth_other in Tj by auto. destruct (D j tj Tj) as (B1 & B2 & B3).
      unfold below, rising. rewrite (calls_on_else j l k) by congruence. split; [lia|]. split; auto.
Qed.

Lemma counted_more n l ts t0 s : counted n l ts -> (tr_spill t0 = 0 \/ exists i t, nth_error ts i = Some t /\ tr_spill t0 = tr_spill t)%Z ->
  s = ts ++ [t0] -> counted n l s.
Proof.
  intros (U & F & D) Z0 ->. split; [auto|]. split.
  - intros i L. rewrite app_length in L. cbn in L. apply F. lia.
  - intros i t T. destruct (Nat.eq_dec i (List.length ts)) as [-> | N].
    + rewrite nth_error_app2, Nat.sub_diag in T by lia. cbn in T. injection T as <-.
      split.
      * destruct Z0 as [-> | (j & t & T & ->)]; [lia|]. destruct (D j t T); auto.
      * unfold below, rising. rewrite F by lia. split; [intros ? ? ? ? []|].
        intros a b k k' r r' hs hs' h h' _ N1. destruct a; discriminate N1.
    + apply D. assert (i < List.length (ts ++ [t0]))%nat by (apply nth_error_Some; congruence).
      rewrite app_length in H. cbn in H. rewrite nth_error_app1 in T by lia. exact T.
Qed.

Lemma carried_events sim run c t hits t' doc r : int32 (tr_spill t) ->
  track_many sim run c t hits = (t', doc, r) -> carries (tr_spill t) r.
Proof.
  intros S32 M. apply many_spec in M. destruct M as (_ & _ & _ & _ & M). intros l hs h -> I1 I2.
  destruct M as (_ & _ & evs & _ & E). apply events_spill in E; auto.
  rewrite Forall_forall in E. specialize (E hs I1). rewrite Forall_forall in E. auto.
Qed.

Lemma counted_step sim c w op n : small n -> counted n (tw_calls w) (tw_trackers w) ->
  counted (S n) (tw_calls (texec sim c w op)) (tw_trackers (texec sim c w op)).
Proof.
  intros L C.
  assert (W : forall l ts, counted n l ts -> counted (S n) l ts).
  { intros l ts (U & F & D). split; [auto|split; auto]. intros i t T. destruct (D i t T) as (A & B). split; [lia|auto]. }
  assert (I32 : forall i t, nth_error (tw_trackers w) i = Some t -> int32 (tr_spill t)).
  { intros i t T. destruct C as (_ & _ & D). destruct (D i t T) as (A & _). unfold small, int32 in *. lia. }
  destruct op as [cards seed|k hits|k h|k]; cbn [texec].
  - apply W. eapply counted_more; [exact C| |reflexivity]. left. reflexivity.
  - destruct (nth_error (tw_trackers w) k) as [tk|] eqn:K; auto.
    destruct (track_many _ _ _ _ _) as [[t' doc] r] eqn:M. cbn [tw_calls tw_trackers].
    apply (counted_call n _ _ k tk); auto.
    + cbn. eapply carried_events; eauto.
    + apply many_spec in M. destruct M as (_ & _ & _ & _ & M). cbn. destruct r as [e|l].
      * right. split; [tauto|congruence].
      * left. tauto.
  - destruct (nth_error (tw_trackers w) k) as [tk|] eqn:K; auto.
    rewrite one_many. destruct (track_many sim _ c tk [h]) as [[t' doc] r] eqn:M. cbn [tw_calls tw_trackers].
    apply (counted_call n _ _ k tk); auto.
    + cbn. pose proof (carried_events _ _ _ _ _ _ _ _ (I32 k tk K) M) as E. destruct r as [e|[|l0 l]].
      * intros ? ? ? [=].
      * intros ? ? ? [=].
      * intros l1 hs h1 [= <-] [<-|[]] I2. apply (E (l0 :: l) l0 h1); simpl; auto.
    + apply many_spec in M. destruct M as (_ & _ & _ & _ & M). cbn. destruct r as [e|l].
      * right. split; [tauto|congruence].
      * left. tauto.
  - destruct (nth_error (tw_trackers w) k) as [tk|] eqn:K; auto.
    unfold tracker_copy, tracker_new. cbn [tw_calls tw_trackers].
    apply W. eapply counted_more; [exact C| |reflexivity]. right. exists k, tk. auto.
Qed.
Lemma counted_run sim c p : small (List.length p) ->
  counted (List.length p) (tw_calls (trun sim c p)) (tw_trackers (trun sim c p)).
Proof.
  unfold trun. rewrite <- fold_left_rev_right, <- (rev_length p).
  induction (rev p) as [|op q IH]; intros L; cbn [fold_right List.length].
  - split; [intros k []|]. split; [reflexivity|]. intros i t T. destruct i; discriminate T.
  - apply counted_step; [|apply IH]; unfold small in *; cbn [List.length] in L; lia.
Qed.

(** Copies. *)
Lemma copy_same run t : snd (tracker_copy run t) = t.
Proof. destruct t. reflexivity. Qed.

Lemma same_calls sim c fs : forall w w' i j t,
  tw_running w = tw_running w' -> nth_error (tw_trackers w) i = Some t -> nth_error (tw_trackers w') j = Some t ->
  exists new new', tw_calls (fold_left (texec sim c) (map (on i) fs) w) = tw_calls w ++ new /\
    tw_calls (fold_left (texec sim c) (map (on j) fs) w') = tw_calls w' ++ new' /\
    map seen new = map seen new' /\ Forall (fun k => ca_tracker k = i) new /\ Forall (fun k => ca_tracker k = j) new' /\
    List.length new = List.length fs.
Proof.
  induction fs as [|f fs IH]; intros w w' i j t RR T T'; cbn [map fold_left].
  - exists [], []. rewrite !app_nil_r. repeat split; auto.
  - assert (H : exists t1 run doc r, texec sim c w (on i f) = mkTWorld (tw_running w) (set_nth (tw_trackers w) i t1) (tw_calls w ++ [mkCall i run doc r]) /\
                texec sim c w' (on j f) = mkTWorld (tw_running w') (set_nth (tw_trackers w') j t1) (tw_calls w' ++ [mkCall j run doc r])).
    { destruct f as [hits|h]; cbn [on texec]; rewrite T, T', <- RR.
      - destruct (track_many sim (tw_running w) c t hits) as [[t1 doc] r]. exists t1, (tw_running w), doc, r. auto.
      - destruct (track_one sim (tw_running w) c t h) as [[t1 doc] r]. eexists t1, (tw_running w), doc, _. auto. }
    destruct H as (t1 & run & doc & r & -> & ->).
    destruct (IH (mkTWorld (tw_running w) (set_nth (tw_trackers w) i t1) (tw_calls w ++ [mkCall i run doc r]))
                 (mkTWorld (tw_running w') (set_nth (tw_trackers w') j t1) (tw_calls w' ++ [mkCall j run doc r])) i j t1)
      as (new & new' & A & B & C & D & E & F); cbn [tw_running tw_trackers]; auto.
    + apply set_nth_seed. congruence.
    + apply set_nth_seed. congruence.
    + exists (mkCall i run doc r :: new), (mkCall j run doc r :: new'). rewrite A, B. cbn [tw_calls].
      rewrite <- !app_assoc. cbn [app map List.length]. repeat split; auto. f_equal; auto.
Qed.

(** A particle without a mass or a charge. *)
Lemma crossing_unknown (c : RCtx) spill ev j h : ints32 h -> ~ in_tables (h_int h Ipid) ->
  tells_crossing j h -> virtual_to_hit c spill ev j = inl MKey.
Proof.
  intros H32 NT (A & B & B'). pose proof A as (_ & _ & _ & _ & _ & _ & C & D).
  unfold virtual_to_hit. rewrite (jget_under _ _ _ D), (jget_under _ _ _ C), (jget_under _ _ _ B), (jget_under _ _ _ B'),
    (vectors_told _ _ A).
  pose proof (H32 Ipid) as P32.
  cbn [to_val int num num_of app]. unfold in_tables in NT. unfold mass_entry, charge_entry.
  cbn [set_each]. unfold fl.
  repeat (match goal with
  | |- context[py_set (?h, ?c) ?k (PFloat ?x)] => erewrite (pset_dbl h c k _ x) by reflexivity
  | |- context[py_set (?h, ?c) ?k (PInt ?z)] => erewrite (pset_int h c k _ z) by (first [reflexivity | assumption | auto])
  end; cbv beta iota).
  destruct (zassoc pdg_pid_to_mass (Z.abs (h_int h Ipid))) as [m|]; [|reflexivity].
  erewrite pset_dbl by reflexivity. cbv beta iota.
  destruct (zassoc pdg_pid_to_charge (h_int h Ipid)) as [q|]; [|reflexivity].
  exfalso. apply NT. split; eauto.
Qed.

Lemma all_or_stop {A B} (f : A -> MErr + B) l1 a l2 e : (forall x, In x l1 -> exists y, f x = inr y) -> f a = inl e ->
  all_or (map f (l1 ++ a :: l2)) = inl e.
Proof.
  intros H E. induction l1 as [|x l1 IH]; cbn [app map all_or].
  - rewrite E. reflexivity.
  - destruct (H x) as (y & ->); [simpl; auto|]. rewrite IH; auto. intros z I. apply H. simpl; auto.
Qed.
Lemma forall2_in {A B} (P : A -> B -> Prop) l m : Forall2 P l m -> forall x, In x l -> exists y, In y m /\ P x y.
Proof.
  induction 1 as [|a b l m H F IH]; intros x I; [destruct I|]. destruct I as [<-|I]; [exists b; simpl; auto|].
  destruct (IH x I) as (y & I' & P'). exists y. simpl; auto.
Qed.

Lemma event_unknown (c : RCtx) spill ev j p hp vs1 v vs2 hs1 h : int32 spill -> int32 ev ->
  under j ["primary"%string] = Some p -> tells_primary p hp -> ints32 hp -> in_tables (h_int hp Ipid) ->
  under j ["virtual_hits"%string] = Some (JList (vs1 ++ v :: vs2)) -> Forall2 tells_crossing vs1 hs1 ->
  Forall (fun h => ints32 h /\ in_tables (h_int h Ipid)) hs1 ->
  tells_crossing v h -> ints32 h -> ~ in_tables (h_int h Ipid) ->
  event_to_hits c spill ev j = inl MKey.
Proof.
  intros S32 E32 P TP P32 PT V TV F T H32 NT. unfold event_to_hits.
  rewrite (jget_under _ _ _ P), (primary_ok c spill ev p hp S32 E32 P32 PT TP), (jget_under _ _ _ V).
  rewrite (all_or_stop _ vs1 v vs2 MKey); auto.
  - intros x I. destruct (forall2_in _ _ _ TV x I) as (y & I' & TX). rewrite Forall_forall in F.
    destruct (F y I') as (F1 & F2). exists (out_crossing spill ev y). apply crossing_ok; auto.
  - eapply crossing_unknown; eauto.
Qed.

Lemma events_unknown (c : RCtx) spill evs1 es1 j evs2 : int32 spill -> Forall sound es1 -> Forall2 tells_event evs1 es1 ->
  (forall ev, int32 ev -> event_to_hits c spill ev j = inl MKey) ->
  forall ev, small (ev + List.length es1) ->
  enumerate_events c spill (Z.of_nat ev) (evs1 ++ j :: evs2) = inl MKey.
Proof.
  intros S32 F T E. induction T as [|j1 e evs es T1 T IH]; intros ev L; cbn [app enumerate_events].
  - rewrite E; auto. apply small32. unfold small in *. cbn in L. lia.
  - inversion F; subst. cbn [List.length] in L. rewrite (event_ok c spill ev j1 e) by (auto; unfold small in *; lia).
    replace (Z.of_nat ev + 1)%Z with (Z.of_nat (S ev)) by lia.
    rewrite IH by (auto; unfold small in *; lia). reflexivity.
Qed.

(** Cards. *)
Definition runs_with (d : Json) (w : TWorld) : Prop :=
  (tw_running w = None \/ tw_running w = Some d) /\
  (forall i t, nth_error (tw_trackers w) i = Some t -> tr_cards t = None \/ tr_cards t = Some d /\ tw_running w = Some d) /\
  (forall k t, In k (tw_calls w) -> nth_error (tw_trackers w) (ca_tracker k) = Some t -> tr_cards t = Some d -> ca_running k = Some d) /\
  (forall k, In k (tw_calls w) -> nth_error (tw_trackers w) (ca_tracker k) <> None).

Lemma runs_call d w i t t' doc r : runs_with d w -> nth_error (tw_trackers w) i = Some t -> tr_cards t' = tr_cards t ->
  runs_with d (mkTWorld (tw_running w) (set_nth (tw_trackers w) i t') (tw_calls w ++ [mkCall i (tw_running w) doc r])).
Proof.
  intros (A & B & C & D) T E. unfold runs_with. cbn [tw_running tw_trackers tw_calls].
  assert (G : forall j tj, nth_error (set_nth (tw_trackers w) i t') j = Some tj ->
    exists tj', nth_error (tw_trackers w) j = Some tj' /\ tr_cards tj' = tr_cards tj).
  { intros j tj H. destruct (Nat.eq_dec i j) as [-> | N].
    - rewrite set_nth_seed in H by congruence. injection H as <-. eauto.
    - rewrite nth_set_nth_other in H by auto. eauto. }
  split; [auto|]. split; [|split].
  - intros j tj H. destruct (G j tj H) as (tj' & H1 & H2). rewrite <- H2. eauto.
  - intros k tk I H Q. destruct (G _ _ H) as (tk' & H1 & H2). apply in_app_or in I. destruct I as [I|[<-|[]]].
    + eapply C; eauto. congruence.
    + cbn [ca_tracker ca_running] in *. destruct (B i tk' H1) as [B1|(_ & B1)]; [congruence|auto].
  - intros k I H. apply in_app_or in I. destruct I as [I|[<-|[]]].
    + apply nth_error_None in H. rewrite set_nth_length in H. apply (D k I). apply nth_error_None. auto.
    + cbn [ca_tracker] in H. rewrite set_nth_seed in H by congruence. discriminate.
Qed.
Lemma runs_more d w run t : runs_with d w ->
  (tr_cards t = None /\ run = tw_running w \/ tr_cards t = Some d /\ run = Some d) ->
  runs_with d (mkTWorld run (tw_trackers w ++ [t]) (tw_calls w)).
Proof.
  intros (A & B & C & D) E. unfold runs_with. cbn [tw_running tw_trackers tw_calls].
  assert (G : forall j tj, nth_error (tw_trackers w ++ [t]) j = Some tj ->
     nth_error (tw_trackers w) j = Some tj \/ tj = t).
  { intros j tj H. destruct (lt_dec j (List.length (tw_trackers w))) as [L|L].
    - rewrite nth_error_app1 in H by auto. auto.
    - right. rewrite nth_error_app2 in H by lia. destruct (j - List.length (tw_trackers w))%nat as [|[|x]]; cbn in H; congruence. }
  split; [destruct E as [(_ & ->)|(_ & ->)]; auto|]. split; [|split].
  - intros j tj H. destruct (G j tj H) as [H1 | ->].
    + destruct (B j tj H1) as [B1|(B1 & B2)]; auto. right. split; auto. destruct E as [(_ & ->)|(_ & ->)]; auto.
    + destruct E as [(E1 & _)|(E1 & E2)]; auto.
  - intros k tk I H Q. pose proof (D k I) as L. apply nth_error_Some in L. rewrite nth_error_app1 in H by auto. eauto.
  - intros k I H. pose proof (D k I) as L. apply nth_error_Some in L. rewrite nth_error_app1 in H by auto.
    apply nth_error_None in H. lia.
Qed.
Lemma runs_step sim c d w op : one_deck d op -> runs_with d w -> runs_with d (texec sim c w op).
Proof.
  intros O W. destruct op as [cards seed|k hits|k h|k]; cbn [texec].
  - cbn [tracker_new]. apply runs_more; auto. cbn in *. destruct O as [-> | ->]; auto.
  - destruct (nth_error (tw_trackers w) k) as [tk|] eqn:K; auto.
    destruct (track_many _ _ _ _ _) as [[t' doc] r] eqn:M. apply many_spec in M. eapply runs_call; eauto. tauto.
  - destruct (nth_error (tw_trackers w) k) as [tk|] eqn:K; auto. rewrite one_many.
    destruct (track_many _ _ _ _ _) as [[t' doc] r] eqn:M. apply many_spec in M. eapply runs_call; eauto. tauto.
  - destruct (nth_error (tw_trackers w) k) as [tk|] eqn:K; auto. unfold tracker_copy, tracker_new.
    apply runs_more; auto. cbn. pose proof W as (_ & B & _). destruct (B k tk K) as [-> | (-> & _)]; auto.
Qed.
Lemma runs_run sim c d p : Forall (one_deck d) p -> runs_with d (trun sim c p).
Proof.
  intros F. unfold trun. assert (W : runs_with d (mkTWorld None [] [])).
  { split; [auto|]. split; [intros [|i] t [=]|]. split; [intros k t []|intros k []]. }
  revert W. generalize (mkTWorld None [] []). induction F as [|op p O F IH]; intros w W; cbn [fold_left]; auto.
  apply IH. apply runs_step; auto.
Qed.
