(** Proofs about reading MAUS ROOT files. *)
From Coq Require Import Reals ZArith String List Bool Lia Lra.
From Verif Require Import Num HitcoreModel PyLibModel HitPyModel TableModel IOModel IOSpec CommonModel
  HitcoreSpec HitcoreProofs HitPySpec HitPyProofs IOProofs MausModel MausSpec MausProofs MausReadProofs MausRootModel MausRootSpec.
Import ListNotations.
Open Scope list_scope.

Lemma enumerate_number {A} (l : list A) : forall n,
  enumerate (Z.of_nat n) l = map (fun p => (Z.of_nat (fst p), snd p)) (number n l).
Proof.
  induction l as [|a l IH]; intros n; cbn [enumerate number map fst snd]; auto.
  f_equal. replace (Z.of_nat n + 1)%Z with (Z.of_nat (S n)) by lia. apply IH.
Qed.
Lemma number_in {A} (l : list A) : forall n p, In p (number n l) ->
  In (snd p) l /\ (n <= fst p < n + List.length l)%nat.
Proof.
  induction l as [|a l IH]; intros n p I; cbn [number] in I; [destruct I|].
  destruct I as [<- | I]; cbn [fst snd List.length]; [simpl; split; [auto|lia]|].
  apply IH in I. simpl. intuition lia.
Qed.
Lemma number_small {A} (l : list A) p : small (List.length l) -> In p (number 0 l) -> small (fst p) /\ In (snd p) l.
Proof. intros S I. apply number_in in I. unfold small in *. split; [lia|tauto]. Qed.

Lemma small_in32 n : small n -> int32 (Z.of_nat n).
Proof. unfold small, int32. lia. Qed.

Lemma root_virtual_spec (c : RCtx) spill ev v : in32 spill -> small ev ->
  in32 (vh_pid v) /\ in32 (vh_station v) /\ in32 (vh_track v) ->
  root_virtual c spill (Z.of_nat ev) v = inr (virtual_hit spill ev v).
Proof.
  intros Hs He (A & B & C). pose proof (small_in32 _ He) as He'.
  unfold root_virtual, hit_from_dict, virtual_hit, vec3, norm2, cx, cy, cz.
  destruct (vh_pos v) as [[x y] z], (vh_mom v) as [[px py] pz], (vh_b v) as [[bx by'] bz], (vh_e v) as [[ex ey] ez].
  cbn [app append set_vals fst snd]. unfold fl. change in32 with int32 in *. psets.
  unfold mass_shell. cbn [String.eqb Ascii.eqb Bool.eqb ms_err]. f_equal.
  apply hit_eq; intros k; destruct k; try reflexivity.
  change (sqrt (vh_mass v * vh_mass v + px * px + py * py + pz * pz) =
          sqrt (vh_mass v * vh_mass v + (px * px + py * py + pz * pz)))%R.
  apply (f_equal sqrt). ring.
Qed.

Lemma root_step_spec (c : RCtx) spill ev t i s : in32 spill -> small ev -> small i ->
  in32 (mt_pid t) -> in32 (mt_id t) -> known_particle (mt_pid t) ->
  root_step c spill (Z.of_nat ev) t (Z.of_nat i) s = inr (step_hit spill ev t i s).
Proof.
  intros Hs He Hi A B (K1 & K2). pose proof (small_in32 _ He) as He'. pose proof (small_in32 _ Hi) as Hi'.
  unfold root_step, step_hit, vec3, norm2, cx, cy, cz.
  destruct (st_pos s) as [[x y] z], (st_mom s) as [[px py] pz], (st_b s) as [[bx by'] bz], (st_e s) as [[ex ey] ez],
    (st_spin s) as [[sx sy] sz].
  cbn [app append set_vals fst snd]. unfold fl. change in32 with int32 in *. psets.
  match goal with |- context[h_int ?g Ipid] => change (h_int g Ipid) with (mt_pid t) end.
  cbv zeta. unfold mass_for, charge_for.
  destruct (zassoc pdg_pid_to_mass (Z.abs (mt_pid t))) as [m|]; [|destruct K1; reflexivity].
  destruct (zassoc pdg_pid_to_charge (mt_pid t)) as [q|]; [|destruct K2; reflexivity].
  cbn [set_vals]. psets.
  match goal with |- context[py_set (?g, c) "charge" (PInt q)] =>
    change (py_set (g, c) "charge" (PInt q)) with ((hit_set_dbl g Vcharge (IZR q : RNum), c), @None PyErr) end.
  cbv beta iota. psets.
  unfold mass_shell. cbn [String.eqb Ascii.eqb Bool.eqb ms_err]. f_equal.
  apply hit_eq; intros k; destruct k; try reflexivity.
  change (sqrt (m * m + px * px + py * py + pz * pz) = sqrt (m * m + (px * px + py * py + pz * pz)))%R.
  apply (f_equal sqrt). ring.
Qed.
Lemma root_step_unknown (c : RCtx) spill ev t i s : small i ->
  in32 (mt_pid t) -> in32 (mt_id t) -> ~ known_particle (mt_pid t) ->
  root_step c spill ev t (Z.of_nat i) s = inl MKey.
Proof.
  intros Hi A B K. pose proof (small_in32 _ Hi) as Hi'.
  unfold root_step, vec3.
  destruct (st_pos s) as [[x y] z], (st_mom s) as [[px py] pz], (st_b s) as [[bx by'] bz], (st_e s) as [[ex ey] ez],
    (st_spin s) as [[sx sy] sz].
  cbn [app append set_vals fst snd]. unfold fl. change in32 with int32 in *. psets.
  match goal with |- context[h_int ?g Ipid] => change (h_int g Ipid) with (mt_pid t) end.
  cbv zeta. unfold known_particle in K.
  destruct (zassoc pdg_pid_to_mass (Z.abs (mt_pid t))) as [m|]; auto.
  destruct (zassoc pdg_pid_to_charge (mt_pid t)) as [q|]; auto.
  destruct K. split; discriminate.
Qed.

Lemma root_primary_fields (c : RCtx) spill ev p : in32 spill -> small ev -> in32 (pr_pid p) ->
  exists h : RHit, root_primary c spill (Z.of_nat ev) p =
    (let (h3, r) := mass_shell (primary_hit spill ev p) "p" in
     match ms_err r with Some e => inl (err_of e) | None => inr h3 end).
Proof.
  intros Hs He A. pose proof (small_in32 _ He) as He'. exists (primary_hit spill ev p).
  unfold root_primary, vec3.
  assert (PH : primary_hit spill ev p = primary_hit spill ev p) by reflexivity.
  unfold primary_hit at 2 in PH. unfold cx, cy, cz in PH.
  destruct (pr_pos p) as [[x y] z], (pr_mom p) as [[px py] pz]. cbn [fst snd] in PH.
  cbn [app append set_vals fst snd]. unfold fl. change in32 with int32 in *. psets.
  match goal with |- context[h_int ?g Ipid] => change (h_int g Ipid) with (pr_pid p) end.
  rewrite mass_val_for. unfold put, fl. psets. cbn [fst]. cbv zeta.
  match goal with |- context[h_dbl ?g Vcharge] => change (h_dbl g Vcharge) with (0%R : RNum) end.
  replace (trunc (0%R : RNum)) with 0%Z.
  2: { symmetry. pose proof (trunc_int 0) as T. replace (0 / 1)%R with 0%R in T by field. exact T. }
  change (zassoc pdg_pid_to_charge 0) with (Some 0%Z). cbv beta iota.
  destruct (Req_EM_T _ _) as [_|NE]; [|destruct NE; reflexivity].
  match goal with |- context[py_set (?g, c) "charge" (PInt 0)] =>
    change (py_set (g, c) "charge" (PInt 0)) with ((hit_set_dbl g Vcharge (0%R : RNum), c), @None PyErr) end.
  cbn [fst]. rewrite PH. 
  match goal with |- (let (_, _) := mass_shell ?g "p" in _) = (let (_, _) := mass_shell ?g' "p" in _) => replace g with g'; [reflexivity|] end.
  apply hit_eq; intros k; destruct k; reflexivity.
Qed.
Lemma root_primary_flying (c : RCtx) spill ev p : in32 spill -> small ev -> in32 (pr_pid p) -> flying p ->
  root_primary c spill (Z.of_nat ev) p = inr (primary_hit spill ev p).
Proof.
  intros Hs He A (F1 & F2 & F3). destruct (root_primary_fields c spill ev p Hs He A) as (_ & ->).
  destruct (shell_fixed (primary_hit spill ev p)) as (h' & M & ->); [ | |rewrite M; reflexivity].
  - unfold on_shell, norm2 in *. cbn. rewrite F1. rring.
  - unfold momentum_squared. cbn. exact F2.
Qed.
Lemma root_primary_slow (c : RCtx) spill ev p : in32 spill -> small ev -> in32 (pr_pid p) -> too_slow p ->
  root_primary c spill (Z.of_nat ev) p = inl MIndex.
Proof.
  intros Hs He A L. destruct (root_primary_fields c spill ev p Hs He A) as (_ & ->).
  unfold mass_shell. cbn [String.eqb Ascii.eqb Bool.eqb].
  unfold py_sqrt. destruct (Rlt_dec _ 0) as [_|G].
  - unfold set_p. destruct (Req_EM_T _ _); reflexivity.
  - destruct G. cbn. unfold too_slow in L. nra.
Qed.

(** Loops. *)
Lemma gather_ok {A} mk (g : A -> RHit) l : forall acc, (forall a, In a l -> mk a = inr (g a)) ->
  gather mk l acc = (acc ++ map g l, None).
Proof.
  induction l as [|j js IH]; intros acc H; simpl.
  - rewrite app_nil_r. reflexivity.
  - rewrite H by (simpl; auto). rewrite IH by (intros; apply H; simpl; auto).
    rewrite <- app_assoc. reflexivity.
Qed.
Lemma gather_app {A} mk (l m : list A) : forall acc,
  gather mk (l ++ m) acc = match gather mk l acc with (acc', None) => gather mk m acc' | r => r end.
Proof.
  induction l as [|a l IH]; intros acc; simpl; auto. destruct (mk a); auto.
Qed.
Lemma gather_error {A} mk (e : MErr) (l : list A) : forall acc,
  (forall a, In a l -> mk a = inl e \/ exists h, mk a = inr h) -> (exists a, In a l /\ mk a = inl e) ->
  exists hs, gather mk l acc = (hs, Some e).
Proof.
  induction l as [|a l IH]; intros acc H (b & I & E); [destruct I|].
  simpl. destruct (H a (or_introl eq_refl)) as [-> | (h & M)].
  - eauto.
  - rewrite M. apply IH.
    + intros x X. apply H. simpl; auto.
    + destruct I as [-> | I]; [congruence|eauto].
Qed.
Lemma gather_map {A B} mk (o : B -> A) (g : B -> RHit) bs acc : (forall b, In b bs -> mk (o b) = inr (g b)) ->
  gather mk (map o bs) acc = (acc ++ map g bs, None).
Proof.
  revert acc. induction bs as [|j js IH]; intros acc H; simpl.
  - rewrite app_nil_r. reflexivity.
  - rewrite H by (simpl; auto). rewrite IH by (intros; apply H; simpl; auto).
    rewrite <- app_assoc. reflexivity.
Qed.
Lemma gather_flat {A B} mk (f : B -> list A) (g : B -> list RHit) bs :
  (forall b, In b bs -> forall acc, gather mk (f b) acc = (acc ++ g b, None)) ->
  forall acc, gather mk (flat_map f bs) acc = (acc ++ flat_map g bs, None).
Proof.
  induction bs as [|b bs IH]; intros H acc; simpl.
  - rewrite app_nil_r. reflexivity.
  - rewrite gather_app, H by (simpl; auto). rewrite IH by (intros; apply H; simpl; auto).
    rewrite <- app_assoc. reflexivity.
Qed.
Lemma flat_map_map {A B C} (f : B -> list C) (g : A -> B) l : flat_map f (map g l) = flat_map (fun a => f (g a)) l.
Proof. induction l as [|a l IH]; simpl; congruence. Qed.
Lemma enumerate0 {A} (l : list A) : enumerate 0 l = map (fun p => (Z.of_nat (fst p), snd p)) (number 0 l).
Proof. exact (enumerate_number l 0). Qed.

Lemma fits_event s e : fits s -> In e (number 0 (rs_mc s)) -> small (fst e) /\ in32 (rs_number s) /\
  Forall (fun v => in32 (vh_pid v) /\ in32 (vh_station v) /\ in32 (vh_track v)) (mc_virtuals (snd e)) /\
  Forall (fun t => in32 (mt_pid t) /\ in32 (mt_id t) /\ small (List.length (mt_steps t))) (mc_tracks (snd e)) /\
  in32 (pr_pid (mc_primary (snd e))).
Proof.
  intros (F1 & F2 & _ & F3 & _) I. apply number_small in I; auto. destruct I as [I J].
  split; auto. split; auto. rewrite Forall_forall in F3. apply F3. auto.
Qed.

Lemma read_virtuals rd s : fits s -> read_spill rd FVirtual s = (spill_hits (rd_cut rd) FVirtual s, None).
Proof.
  intros F. unfold read_spill, spill_virtuals, spill_hits. rewrite enumerate0, flat_map_map. cbn [fst snd].
  erewrite (gather_flat _ _ (fun e => map (virtual_hit (rs_number s) (fst e)) (mc_virtuals (snd e)))); [reflexivity|].
  intros e I acc. destruct (fits_event s e F I) as (H1 & H2 & H3 & _). rewrite Forall_forall in H3.
  apply gather_map. intros v V. cbn [fst snd]. apply root_virtual_spec; auto.
Qed.
Lemma read_steps rd s : readable rd FStep s -> read_spill rd FStep s = (spill_hits (rd_cut rd) FStep s, None).
Proof.
  intros (F & K). unfold read_spill, spill_steps, spill_hits. rewrite enumerate0, flat_map_map. cbn [fst snd].
  erewrite (gather_flat _ _ (fun e => flat_map (fun t => map (fun st => step_hit (rs_number s) (fst e) t (fst st) (snd st))
    (number 0 (mt_steps t))) (mc_tracks (snd e)))); [reflexivity|].
  intros e I. destruct (fits_event s e F I) as (H1 & H2 & _ & H3 & _). rewrite Forall_forall in H3.
  apply gather_flat. intros t T acc. destruct (H3 t T) as (T1 & T2 & T3).
  assert (KT : mt_steps t = [] \/ known_particle (mt_pid t)).
  { apply number_in in I. destruct I as [I _]. rewrite Forall_forall in K. specialize (K _ I).
    rewrite Forall_forall in K. auto. }
  rewrite enumerate0, map_map. cbn [fst snd]. apply gather_map. intros st S.
  pose proof (number_small _ _ T3 S) as (S1 & S2).
  destruct KT as [KT|KT]; [rewrite KT in S2; destruct S2|].
  apply root_step_spec; auto.
Qed.
Lemma read_primaries rd s : readable rd FPrimary s -> read_spill rd FPrimary s = (spill_hits (rd_cut rd) FPrimary s, None).
Proof.
  intros (F & K). unfold read_spill, spill_primaries, spill_hits. rewrite enumerate0, map_map. cbn [fst snd].
  erewrite (gather_map _ _ (fun e => primary_hit (rs_number s) (fst e) (mc_primary (snd e)))); [reflexivity|].
  intros e I. cbn [fst snd]. destruct (fits_event s e F I) as (H1 & H2 & _ & _ & H3).
  apply root_primary_flying; auto. apply number_in in I. destruct I as [I _].
  rewrite Forall_forall in K. auto.
Qed.

(** Times of flight. *)
Lemma fold_sum l : forall a, fold_left Rplus l a = (a + sum l)%R.
Proof. induction l as [|x l IH]; intros a; simpl; [ring|]. rewrite IH. ring. Qed.
Lemma tof_means_spec t0 t1 : tof_means t0 t1 = match between_means t0 t1 with Some d => [d] | None => [] end.
Proof.
  destruct t0 as [|a t0], t1 as [|b t1]; try reflexivity.
  unfold tof_means, between_means, mean_time. rewrite !fold_sum. f_equal. unfold Rdiv. ring.
Qed.
Lemma tof_times_head t : hd_error (tof_times t) = flight_time t.
Proof.
  unfold tof_times, flight_time. rewrite !tof_means_spec.
  assert (N : (match between_means (tof0_slabs t) (tof1_slabs t) with Some d => [d] | None => [] end = [] /\
               between_means (tof0_slabs t) (tof1_slabs t) = None) \/
              exists d, between_means (tof0_slabs t) (tof1_slabs t) = Some d).
  { destruct (between_means (tof0_slabs t) (tof1_slabs t)); eauto. }
  assert (M : hd_error (match (match between_means (tof0_slabs t) (tof1_slabs t) with Some d => [d] | None => [] end) with
      | [] => match between_means (tof0_digits t) (tof1_digits t) with Some d => [d] | None => [] end
      | l => l end) =
    match between_means (tof0_slabs t) (tof1_slabs t) with
    | Some d => Some d | None => between_means (tof0_digits t) (tof1_digits t) end).
  { destruct (between_means (tof0_slabs t) (tof1_slabs t)); auto.
    destruct (between_means (tof0_digits t) (tof1_digits t)); auto. }
  unfold tof_points. destruct (tof0_points t) as [|a t0].
  - replace (flat_map (fun b => map (fun a => b - a)%R []) (tof1_points t)) with (@nil R); [exact M|].
    induction (tof1_points t); auto.
  - destruct (tof1_points t) as [|b t1]; [exact M|]. reflexivity.
Qed.

(** Reconstructed events. *)
Lemma set_all_event (c : RCtx) i hs : int32 i ->
  set_all c "event_number" (PInt i) hs = inr (map (fun h => hit_set_int h Ievent i) hs).
Proof.
  intros I. induction hs as [|h hs IH]; auto. cbn [set_all map]. psets. rewrite IH. reflexivity.
Qed.
Lemma set_all_t (c : RCtx) d hs :
  set_all c "t" (fl d) hs = inr (map (fun h => hit_set_dbl h Vt (d : RNum)) hs).
Proof.
  induction hs as [|h hs IH]; auto. cbn [set_all map]. unfold fl in *. psets. rewrite IH. reflexivity.
Qed.
Definition track_hits (cut : R) (spill : Z) (e : ReconEvent) : list RHit :=
  flat_map (fun k => if passes cut (snd k) then map (tracker_hit spill (fst k)) (snd (snd k)) else [])
           (number 0 (re_tracks e)).
Lemma point_hits_map cut spill ev t e : point_hits cut spill ev t e =
  map (fun h => hit_set_dbl h Vt (t : RNum)) (map (fun h => hit_set_int h Ievent (Z.of_nat ev)) (track_hits cut spill e)).
Proof.
  unfold point_hits, track_hits. induction (number 0 (re_tracks e)) as [|k l IH]; auto.
  cbn [flat_map]. rewrite !map_app, IH. f_equal. destruct (passes cut (snd k)); auto. rewrite !map_map. reflexivity.
Qed.
Lemma point_hits_zero cut spill ev e : point_hits cut spill ev 0 e =
  map (fun h => hit_set_int h Ievent (Z.of_nat ev)) (track_hits cut spill e).
Proof.
  unfold point_hits, track_hits. induction (number 0 (re_tracks e)) as [|k l IH]; auto.
  cbn [flat_map]. rewrite map_app, IH. f_equal. destruct (passes cut (snd k)); auto.
  rewrite map_map. apply map_ext. intros tp. apply hit_eq; intros v.
  - destruct v; try reflexivity. unfold tracker_hit. destruct (tp_pos tp) as [[? ?] ?], (tp_mom tp) as [[? ?] ?]. reflexivity.
  - destruct v; reflexivity.
Qed.

Lemma recon_ok (c : RCtx) cut fmt spill (evs : list (nat * ReconEvent)) : fmt = FScifi \/ fmt = FScifiTof ->
  in32 spill ->
  (forall p, In p evs -> small (fst p) /\ small (List.length (re_tracks (snd p))) /\
     Forall (fun t => passes cut t = true -> Forall accepted_point (snd t)) (re_tracks (snd p))) ->
  forall acc, recon_hits false c cut fmt spill (map (fun p => (Z.of_nat (fst p), snd p)) evs) acc =
  (acc ++ flat_map (fun e => match fmt with
     | FScifi => point_hits cut spill (fst e) 0 (snd e)
     | _ => match flight_time (re_tof (snd e)) with Some t => point_hits cut spill (fst e) t (snd e) | None => [] end
     end) evs, None).
Proof.
  intros FM Hs. induction evs as [|[i e] evs IH]; intros H acc.
  - simpl. rewrite app_nil_r. reflexivity.
  - assert (H' : forall p, In p evs -> small (fst p) /\ small (List.length (re_tracks (snd p))) /\
      Forall (fun t => passes cut t = true -> Forall accepted_point (snd t)) (re_tracks (snd p)))
      by (intros p I; apply H; simpl; auto).
    specialize (IH H'). destruct (H (i, e) (or_introl eq_refl)) as (H1 & H2 & H3). cbn [fst snd] in *.
    cbn [map recon_hits flat_map fst snd]. unfold read_scifi.
    pose proof (sf_tracks_spec c cut spill (re_tracks e) Hs H3 0) as SF.
    change (Z.of_nat 0) with 0%Z in SF. rewrite SF by (unfold small in *; cbn [Nat.add]; lia). clear SF. fold (track_hits cut spill e).
    assert (NIL : track_hits cut spill e = [] -> forall t, point_hits cut spill i t e = []).
    { intros Z t. rewrite point_hits_map, Z. reflexivity. }
    destruct (track_hits cut spill e) as [|h hs] eqn:TH.
    + rewrite IH. f_equal. f_equal.
      destruct FM as [-> | ->].
      * rewrite NIL; auto.
      * destruct (flight_time (re_tof e)); auto. rewrite NIL; auto.
    + rewrite set_all_event by (apply small_in32; auto).
      destruct FM as [-> | ->].
      * rewrite IH, point_hits_zero, TH, <- app_assoc. reflexivity.
      * pose proof (tof_times_head (re_tof e)) as TT.
        destruct (tof_times (re_tof e)) as [|d ds]; cbn [hd_error] in TT; rewrite <- TT.
        -- rewrite IH. reflexivity.
        -- rewrite set_all_t, IH, point_hits_map, TH, <- app_assoc. reflexivity.
Qed.

Lemma read_spill_ok rd fmt s : readable rd fmt s -> read_spill rd fmt s = (spill_hits (rd_cut rd) fmt s, None).
Proof.
  intros H. destruct fmt.
  - apply read_virtuals. apply H.
  - apply read_primaries. auto.
  - apply read_steps. auto.
  - destruct H as (F & [E | (P & A)]).
    + unfold read_spill, spill_hits. rewrite E. reflexivity.
    + unfold read_spill, spill_hits. rewrite P, enumerate0. destruct F as (F1 & _ & F2 & _ & F3).
      rewrite recon_ok; auto. intros p I. destruct (number_small _ _ F2 I) as (I1 & I2).
      rewrite Forall_forall in F3, A. auto.
  - destruct H as (F & [E | (P & A)]).
    + unfold read_spill, spill_hits. rewrite E. reflexivity.
    + unfold read_spill, spill_hits. rewrite P, enumerate0. destruct F as (F1 & _ & F2 & _ & F3).
      rewrite recon_ok; auto. intros p I. destruct (number_small _ _ F2 I) as (I1 & I2).
      rewrite Forall_forall in F3, A. auto.
Qed.

(** The loop over hits. *)
Arguments read_spill : simpl never.
Definition clean (rd : Reading) (fmt : RootFormat) (ss : list RootSpill) : Prop :=
  forall s, In s ss -> snd (read_spill rd fmt s) = None.
Definition hits_in (rd : Reading) (fmt : RootFormat) (ss : list RootSpill) : list RHit :=
  filter (rd_test rd) (flat_map (fun s => fst (read_spill rd fmt s)) ss).
Lemma hits_in_cons rd fmt s ss : hits_in rd fmt (s :: ss) = filter (rd_test rd) (fst (read_spill rd fmt s)) ++ hits_in rd fmt ss.
Proof. unfold hits_in. cbn [flat_map]. apply filter_app. Qed.

(** What is left when the clean spills are used up. *)
Definition ending (rd : Reading) (fmt : RootFormat) (tail : list RootSpill) : MErr :=
  match tail with
  | [] => MBadEvent
  | s :: _ => match snd (read_spill rd fmt s) with Some e => bad_event e | None => MBadEvent end
  end.
Definition ends (rd : Reading) (fmt : RootFormat) (tail : list RootSpill) : Prop :=
  match tail with [] => True | s :: _ => snd (read_spill rd fmt s) <> None end.

Lemma root_next_clean rd fmt tail : ends rd fmt tail -> forall ss, clean rd fmt ss ->
  match hits_in rd fmt ss with
  | [] => exists f, root_next rd fmt (ss ++ tail) = inl (ending rd fmt tail, f)
  | h :: _ => exists hs ss', root_next rd fmt (ss ++ tail) = inr (h, mkRoot hs (ss' ++ tail)) /\ clean rd fmt ss' /\
      h :: hs ++ hits_in rd fmt ss' = hits_in rd fmt ss
  end.
Proof.
  intros T. induction ss as [|s ss IH]; intros C.
  - cbn [hits_in flat_map filter app]. unfold hits_in. cbn [flat_map filter].
    destruct tail as [|s r]; cbn [root_next ending]; [eauto|].
    cbn [ends] in T. destruct (read_spill rd fmt s) as [hs [e|]]; cbn [snd] in *; [eauto|destruct T; auto].
  - rewrite hits_in_cons. cbn [app root_next]. pose proof (C s (or_introl eq_refl)) as E.
    assert (C' : clean rd fmt ss) by (intros x I; apply C; simpl; auto).
    specialize (IH C').
    destruct (read_spill rd fmt s) as [hs e]. cbn [fst snd] in *. subst e.
    destruct (filter (rd_test rd) hs) as [|h hs'].
    + exact IH.
    + cbn [app]. exists hs', ss. auto.
Qed.

Lemma root_take_spec rd fmt n tail : ends rd fmt tail -> forall fuel hs0 ss acc, clean rd fmt ss ->
  (List.length hs0 + List.length (hits_in rd fmt ss) < fuel)%nat ->
  (n < 0 \/ Z.of_nat (List.length acc) <= n)%Z ->
  let all := acc ++ hs0 ++ hits_in rd fmt ss in
  fst (root_take fuel rd fmt n (mkRoot hs0 (ss ++ tail)) acc) =
  if (Z.ltb n 0 || Z.ltb (Z.of_nat (List.length all)) n)%bool
  then match ending rd fmt tail with MBadEvent => inr all | e => inl e end
  else inr (at_most n all).
Proof.
  intros T. induction fuel as [|fuel IH]; intros hs0 ss acc C L N; [lia|].
  cbv zeta. cbn [root_take].
  destruct (Z.ltb n 0 || Z.ltb (Z.of_nat (List.length acc)) n)%bool eqn:E.
  - assert (N' : (n < 0 \/ Z.of_nat (List.length acc) < n)%Z).
    { apply orb_prop in E. destruct E as [E|E]; apply Z.ltb_lt in E; auto. }
    assert (NL : forall h : RHit, (n < 0 \/ Z.of_nat (List.length (acc ++ [h])) <= n)%Z).
    { intros h. rewrite app_length. cbn [List.length]. lia. }
    unfold root_make_hit. cbn [rf_hits rf_spills]. destruct hs0 as [|h hs0].
    + cbn [app List.length] in *. pose proof (root_next_clean rd fmt tail T ss C) as NS.
      destruct (hits_in rd fmt ss) as [|h hs1] eqn:EH.
      * destruct NS as (f & NS). rewrite NS, app_nil_r, E.
        destruct (ending rd fmt tail); reflexivity.
      * destruct NS as (hs2 & ss' & NS & C' & EQ). rewrite NS.
        specialize (IH hs2 ss' (acc ++ [h]) C'). cbv zeta in IH. rewrite IH; auto.
        { rewrite <- app_assoc. cbn [app]. rewrite EQ. reflexivity. }
        { pose proof (f_equal (@List.length RHit) EQ) as EL. cbn [List.length] in EL, L. rewrite app_length in EL. lia. }
    + specialize (IH hs0 ss (acc ++ [h]) C). cbv zeta in IH. rewrite IH; auto.
      * rewrite <- app_assoc. reflexivity.
      * cbn [List.length] in L. lia.
  - apply orb_false_elim in E. destruct E as [E1 E2]. apply Z.ltb_ge in E1, E2.
    cbn [fst]. rewrite at_most_full by lia.
    replace (_ || _)%bool with false; auto. symmetry. apply orb_false_intro; apply Z.ltb_ge; auto.
    rewrite app_length. lia.
Qed.

Lemma filter_len {A} (f : A -> bool) l : (List.length (filter f l) <= List.length l)%nat.
Proof. induction l as [|a l IH]; simpl; auto. destruct (f a); simpl; lia. Qed.

(** One type on a new factory. *)
Lemma root_take_new rd fmt n ss tail acc : ends rd fmt tail -> clean rd fmt ss ->
  (n < 0 \/ Z.of_nat (List.length acc) <= n)%Z ->
  fst (root_take (root_fuel rd fmt (mkRoot [] (ss ++ tail))) rd fmt n (mkRoot [] (ss ++ tail)) acc) =
  if (Z.ltb n 0 || Z.ltb (Z.of_nat (List.length (acc ++ hits_in rd fmt ss))) n)%bool
  then match ending rd fmt tail with MBadEvent => inr (acc ++ hits_in rd fmt ss) | e => inl e end
  else inr (at_most n (acc ++ hits_in rd fmt ss)).
Proof.
  intros T C N. pose proof (root_take_spec rd fmt n tail T (root_fuel rd fmt (mkRoot [] (ss ++ tail))) [] ss acc C) as H.
  apply H; auto. unfold root_fuel. cbn [rf_hits rf_spills List.length Nat.add].
  rewrite flat_map_app, app_length. unfold hits_in.
  pose proof (filter_len (rd_test rd) (flat_map (fun s => fst (read_spill rd fmt s)) ss)). lia.
Qed.

Lemma hits_in_ok rd fmt ss : Forall (readable rd fmt) ss ->
  clean rd fmt ss /\ hits_in rd fmt ss = filter (rd_test rd) (file_hits (rd_cut rd) fmt ss).
Proof.
  intros F. split.
  - intros s I. rewrite Forall_forall in F. rewrite read_spill_ok; auto.
  - unfold hits_in, file_hits. f_equal. induction F as [|s ss A F IH]; auto.
    cbn [flat_map]. rewrite read_spill_ok by auto. cbn [fst]. f_equal. exact IH.
Qed.
Lemma at_most_cond {A} n (l : list A) :
  (if (Z.ltb n 0 || Z.ltb (Z.of_nat (List.length l)) n)%bool then l else at_most n l) = at_most n l.
Proof.
  destruct (Z.ltb_spec n 0); cbn [orb]; [rewrite at_most_all; auto|].
  destruct (Z.ltb_spec (Z.of_nat (List.length l)) n); auto. rewrite at_most_short; auto. lia.
Qed.

(** The factory after a clean file. *)
Lemma root_next_left rd fmt : forall ss, clean rd fmt ss ->
  match root_next rd fmt ss with
  | inl (_, f) => f = mkRoot [] []
  | inr (_, f) => clean rd fmt (rf_spills f)
  end.
Proof.
  induction ss as [|s ss IH]; intros C; cbn [root_next]; auto.
  pose proof (C s (or_introl eq_refl)) as E.
  assert (C' : clean rd fmt ss) by (intros x I; apply C; simpl; auto).
  destruct (read_spill rd fmt s) as [hs e]. cbn [snd] in E. subst e.
  destruct (filter (rd_test rd) hs) as [|h0 hs0]; [apply IH; auto|exact C'].
Qed.
Definition spent (n : Z) (f : RootFactory) (acc : list RHit) : Prop :=
  f = mkRoot [] [] \/ (0 <= n /\ Z.of_nat (List.length acc) = n)%Z.
Lemma root_take_left rd fmt n : forall fuel hs0 ss acc, clean rd fmt ss ->
  (List.length hs0 + List.length (hits_in rd fmt ss) < fuel)%nat ->
  (n < 0 \/ Z.of_nat (List.length acc) <= n)%Z ->
  match root_take fuel rd fmt n (mkRoot hs0 ss) acc with
  | (inr acc', f) => spent n f acc'
  | _ => True
  end.
Proof.
  induction fuel as [|fuel IH]; intros hs0 ss acc C L N; [lia|].
  cbn [root_take].
  destruct (Z.ltb n 0 || Z.ltb (Z.of_nat (List.length acc)) n)%bool eqn:E.
  - assert (NL : forall h : RHit, (n < 0 \/ Z.of_nat (List.length (acc ++ [h])) <= n)%Z).
    { intros h. rewrite app_length. cbn [List.length].
      apply orb_prop in E. destruct E as [E|E]; apply Z.ltb_lt in E; lia. }
    unfold root_make_hit. cbn [rf_hits rf_spills]. destruct hs0 as [|h hs0].
    + pose proof (root_next_clean rd fmt [] I ss C) as NS. rewrite app_nil_r in NS. cbn [ending] in NS.
      pose proof (root_next_left rd fmt ss C) as NL'. cbn [List.length Nat.add] in L.
      destruct (hits_in rd fmt ss) as [|h hs1].
      * destruct NS as (f & NS). rewrite NS in *. left. auto.
      * destruct NS as (hs2 & ss' & NS & C' & EQ). rewrite app_nil_r in NS. rewrite NS.
        apply IH; auto.
        pose proof (f_equal (@List.length RHit) EQ) as EL. cbn [List.length] in EL, L. rewrite app_length in EL. lia.
    + apply IH; auto. cbn [List.length] in L. lia.
  - apply orb_false_elim in E. destruct E as [E1 E2]. apply Z.ltb_ge in E1, E2. right. lia.
Qed.
Lemma root_take_spent rd fmt n f acc : spent n f acc ->
  exists f', root_take (root_fuel rd fmt f) rd fmt n f acc = (inr acc, f') /\ spent n f' acc.
Proof.
  intros S. unfold root_fuel. cbn [root_take].
  destruct (Z.ltb n 0 || Z.ltb (Z.of_nat (List.length acc)) n)%bool eqn:E; [|eauto].
  destruct S as [-> | (S1 & S2)].
  - cbn. exists (mkRoot [] []). split; auto. left. auto.
  - apply orb_prop in E. destruct E as [E|E]; apply Z.ltb_lt in E; lia.
Qed.

Lemma read_types_any rd n ss ts : forall fm0 f acc,
  Forall (fun t => match root_format t with Some fm => Forall (readable rd fm) ss | None => True end) ts ->
  spent n f acc -> (n < 0 \/ Z.of_nat (List.length acc) <= n)%Z ->
  root_read_types rd n ss ts (Some (fm0, f)) acc =
  inr (at_most n (acc ++ filter (rd_test rd) (flat_map (fun t => match root_format t with
                                                                 | Some fm => file_hits (rd_cut rd) fm ss
                                                                 | None => []
                                                                 end) ts))).
Proof.
  induction ts as [|t ts IH]; intros fm0 f acc F SP N.
  - cbn [root_read_types flat_map filter]. rewrite app_nil_r.
    destruct N as [N|N]; [rewrite at_most_all; auto|rewrite at_most_short; auto].
  - inversion F as [|? ? R F']; subst. cbn [root_read_types flat_map].
    destruct (root_format t) as [fm|].
    + destruct (hits_in_ok rd fm ss R) as (C & HE).
      pose proof (root_take_new rd fm n ss [] acc I C N) as TN. rewrite app_nil_r in TN. cbn [ending] in TN.
      assert (LF : match root_take (root_fuel rd fm (mkRoot [] ss)) rd fm n (mkRoot [] ss) acc with
                   | (inr acc', f) => spent n f acc' | _ => True end).
      { apply root_take_left; auto. unfold root_fuel, hits_in. cbn [rf_hits rf_spills List.length Nat.add].
        pose proof (filter_len (rd_test rd) (flat_map (fun s => fst (read_spill rd fm s)) ss)). lia. }
      destruct (root_take _ rd fm n _ acc) as [r f']. cbn [fst] in TN. subst r.
      match goal with |- context[match (if ?b then inr ?x else inr ?y) with _ => _ end] =>
        replace (if b then inr x else inr y) with (@inr MErr _ (at_most n x)) in * by (rewrite <- (at_most_cond n x); destruct b; reflexivity) end.
      rewrite IH; auto.
      * rewrite filter_app, app_assoc, <- HE. rewrite at_most_at_most. reflexivity.
      * destruct (at_most_len n (acc ++ hits_in rd fm ss)); auto.
    + destruct (root_take_spent rd fm0 n f acc SP) as (f' & -> & SP'). cbn [app]. apply IH; auto.
Qed.
Lemma read_types_first rd n ss t fm ts :
  root_format t = Some fm ->
  Forall (fun t => match root_format t with Some fm => Forall (readable rd fm) ss | None => True end) (t :: ts) ->
  root_read_types rd n ss (t :: ts) None [] =
  inr (at_most n (filter (rd_test rd) (flat_map (fun t => match root_format t with
                                                          | Some fm => file_hits (rd_cut rd) fm ss
                                                          | None => []
                                                          end) (t :: ts)))).
Proof.
  intros E F. assert (N : (n < 0 \/ Z.of_nat (@List.length RHit []) <= n)%Z).
  { cbn [List.length]. destruct (Z.ltb_spec n 0); [left|right]; lia. }
  pose proof (read_types_any rd n ss (t :: ts) fm (mkRoot [] []) [] F) as H. cbn [app] in H.
  rewrite <- H; auto; [|left; auto].
  cbn [root_read_types]. rewrite E. reflexivity.
Qed.

(** Spills that raise. *)
Lemma slow_spill rd s : fits s ->
  Forall (fun e => flying (mc_primary e) \/ too_slow (mc_primary e)) (rs_mc s) ->
  Exists (fun e => too_slow (mc_primary e)) (rs_mc s) ->
  exists hs, read_spill rd FPrimary s = (hs, Some MIndex).
Proof.
  intros F A X. unfold read_spill, spill_primaries. rewrite enumerate0, map_map. cbn [fst snd].
  apply gather_error.
  - intros a I. apply in_map_iff in I. destruct I as (e & <- & I). cbn [fst snd].
    destruct (fits_event s e F I) as (H1 & H2 & _ & _ & H3).
    apply number_in in I. destruct I as [I _]. rewrite Forall_forall in A. destruct (A _ I) as [A'|A'].
    + right. eexists. apply root_primary_flying; auto.
    + left. apply root_primary_slow; auto.
  - apply Exists_exists in X. destruct X as (e & I & X).
    assert (Y : exists k, In (k, e) (number 0 (rs_mc s))).
    { clear - I. generalize 0%nat. induction (rs_mc s) as [|a l IH]; intros n; [destruct I|].
      destruct I as [-> | I]; cbn [number]; [exists n; simpl; auto|].
      destruct (IH I (S n)) as (k & K). exists k. simpl; auto. }
    destruct Y as (k & K). exists (Z.of_nat k, mc_primary e). split.
    + apply in_map_iff. exists (k, e). auto.
    + cbn [fst snd]. destruct (fits_event s _ F K) as (H1 & H2 & _ & _ & H3). cbn [fst snd] in *.
      apply root_primary_slow; auto.
Qed.

Lemma known_dec pid : known_particle pid \/ ~ known_particle pid.
Proof.
  unfold known_particle. destruct (zassoc pdg_pid_to_mass (Z.abs pid)); destruct (zassoc pdg_pid_to_charge pid);
    intuition congruence.
Qed.
Lemma in_number {A} (l : list A) a : In a l -> forall n, exists k, In (k, a) (number n l).
Proof.
  induction l as [|b l IH]; intros I n; [destruct I|].
  destruct I as [-> | I]; cbn [number]; [exists n; simpl; auto|].
  destruct (IH I (S n)) as (k & K). exists k. simpl; auto.
Qed.
Lemma unknown_spill rd s e t : fits s -> In e (rs_mc s) -> In t (mc_tracks e) -> mt_steps t <> [] ->
  ~ known_particle (mt_pid t) ->
  exists hs, read_spill rd FStep s = (hs, Some MKey).
Proof.
  intros F Ie It NE K. unfold read_spill, spill_steps. rewrite enumerate0, flat_map_map. cbn [fst snd].
  assert (KEY : forall p q st, In p (number 0 (rs_mc s)) -> In q (mc_tracks (snd p)) -> In st (number 0 (mt_steps q)) ->
    let r := root_step (rd_ctx rd) (rs_number s) (Z.of_nat (fst p)) q (Z.of_nat (fst st)) (snd st) in
    (r = inl MKey \/ exists h, r = inr h) /\ (~ known_particle (mt_pid q) -> r = inl MKey)).
  { intros p q st P Q ST. destruct (fits_event s p F P) as (H1 & H2 & _ & H3 & _). rewrite Forall_forall in H3.
    destruct (H3 q Q) as (T1 & T2 & T3). destruct (number_small _ _ T3 ST) as (S1 & S2). cbv zeta. split.
    - destruct (known_dec (mt_pid q)).
      + right. eexists. apply root_step_spec; auto.
      + left. apply root_step_unknown; auto.
    - intros U. apply root_step_unknown; auto. }
  apply gather_error.
  - intros a I. apply in_flat_map in I. destruct I as (p & P & I). apply in_flat_map in I. destruct I as (q & Q & I).
    rewrite enumerate0, map_map in I. apply in_map_iff in I. destruct I as (st & <- & I). cbn [fst snd].
    apply (KEY p q st); auto.
  - destruct (in_number _ _ Ie 0) as (k & Kp).
    destruct (mt_steps t) as [|st sts] eqn:ES; [destruct NE; auto|].
    exists (Z.of_nat k, t, 0%Z, st). split.
    + apply in_flat_map. exists (k, e). split; auto. cbn [fst snd]. apply in_flat_map. exists t. split; auto.
      rewrite ES. simpl. auto.
    + assert (IS : In (O, st) (number 0 (mt_steps t))) by (rewrite ES; simpl; auto).
      destruct (KEY (k, e) t (O, st) Kp It IS) as (_ & U). cbn [fst snd] in U. apply U. auto.
Qed.

Lemma python37_spill rd fmt s e es : fmt = FScifi \/ fmt = FScifiTof -> fits s -> rd_pep479 rd = true -> rs_recon s = e :: es ->
  Forall (fun t => passes (rd_cut rd) t = true -> Forall accepted_point (snd t)) (re_tracks e) ->
  read_spill rd fmt s = ([], Some MRuntime).
Proof.
  intros FM F P E A. assert (G : recon_hits (rd_pep479 rd) (rd_ctx rd) (rd_cut rd) fmt (rs_number s) (enumerate 0 (rs_recon s)) [] = ([], Some MRuntime)).
  - rewrite E, P. cbn [enumerate recon_hits]. unfold read_scifi.
    destruct F as (F1 & _ & _ & _ & F3). rewrite E in F3. inversion F3; subst.
    pose proof (sf_tracks_spec (rd_ctx rd) (rd_cut rd) (rs_number s) (re_tracks e) F1 A 0) as SF.
    change (Z.of_nat 0) with 0%Z in SF. rewrite SF by (unfold small in *; cbn [Nat.add]; lia). reflexivity.
  - destruct FM as [-> | ->]; exact G.
Qed.

(** One type, up to a spill that raises. *)
Lemma read_one_tail rd n t fm ss s rest hs e : root_format t = Some fm -> Forall (readable rd fm) ss ->
  read_spill rd fm s = (hs, Some e) ->
  let all := filter (rd_test rd) (file_hits (rd_cut rd) fm ss) in
  read_maus_root_file rd n (Some [t]) (ss ++ s :: rest) =
  if (Z.ltb n 0 || Z.ltb (Z.of_nat (List.length all)) n)%bool
  then match bad_event e with MBadEvent => inr all | e' => inl (RErr e') end
  else inr (at_most n all).
Proof.
  intros E R S. cbv zeta. unfold read_maus_root_file. cbn [root_read_types]. rewrite E.
  destruct (hits_in_ok rd fm ss R) as (C & HE). rewrite <- HE.
  assert (T : ends rd fm (s :: rest)) by (cbn [ends]; rewrite S; discriminate).
  assert (N : (n < 0 \/ Z.of_nat (@List.length RHit []) <= n)%Z).
  { cbn [List.length]. destruct (Z.ltb_spec n 0); [left|right]; lia. }
  pose proof (root_take_new rd fm n ss (s :: rest) [] T C N) as TN. cbn [app ending] in TN.
  rewrite S in TN. cbn [snd] in TN.
  destruct (root_take _ rd fm n _ []) as [r f']. cbn [fst] in TN. subst r.
  destruct (Z.ltb n 0 || _)%bool; auto. destruct (bad_event e); reflexivity.
Qed.

(** Types before the one that raises. *)
Lemma read_types_prefix rd n ss ts' ts : forall fac acc,
  Forall (fun t => exists fm, root_format t = Some fm /\ Forall (readable rd fm) ss) ts ->
  (n < 0 \/ Z.of_nat (List.length acc) <= n)%Z ->
  exists fac', root_read_types rd n ss (ts ++ ts') fac acc =
  root_read_types rd n ss ts' fac'
    (at_most n (acc ++ filter (rd_test rd) (flat_map (fun t => match root_format t with
                                                               | Some fm => file_hits (rd_cut rd) fm ss
                                                               | None => []
                                                               end) ts))).
Proof.
  induction ts as [|t ts IH]; intros fac acc F N.
  - cbn [app flat_map filter]. rewrite app_nil_r. exists fac. f_equal.
    destruct N as [N|N]; [rewrite at_most_all; auto|rewrite at_most_short; auto].
  - inversion F as [|? ? (fm & E & R) F']; subst. cbn [app root_read_types flat_map]. rewrite E.
    destruct (hits_in_ok rd fm ss R) as (C & HE).
    pose proof (root_take_new rd fm n ss [] acc I C N) as TN. rewrite app_nil_r in TN. cbn [ending] in TN.
    destruct (root_take _ rd fm n _ acc) as [r f']. cbn [fst] in TN. subst r.
    match goal with |- context[match (if ?b then inr ?x else inr ?y) with _ => _ end] =>
      replace (if b then inr x else inr y) with (@inr MErr _ (at_most n x)) by (rewrite <- (at_most_cond n x); destruct b; reflexivity) end.
    destruct (IH (Some (fm, f')) (at_most n (acc ++ hits_in rd fm ss))) as (fac' & G); auto.
    { apply at_most_len. }
    exists fac'. rewrite G. f_equal. rewrite filter_app, app_assoc, <- HE. rewrite at_most_at_most. reflexivity.
Qed.
Lemma read_types_raise rd n ss s rest t ts fm hs e fac acc : root_format t = Some fm -> Forall (readable rd fm) ss ->
  read_spill rd fm s = (hs, Some e) -> e <> MIndex -> e <> MBadEvent -> (n < 0)%Z ->
  root_read_types rd n (ss ++ s :: rest) (t :: ts) fac acc = inl (RErr e).
Proof.
  intros E R S NI NB N. cbn [root_read_types]. rewrite E. destruct (hits_in_ok rd fm ss R) as (C & HE).
  assert (T : ends rd fm (s :: rest)) by (cbn [ends]; rewrite S; discriminate).
  pose proof (root_take_new rd fm n ss (s :: rest) acc T C (or_introl N)) as TN. cbn [ending] in TN.
  rewrite S in TN. cbn [snd] in TN. replace (Z.ltb n 0) with true in TN by (symmetry; apply Z.ltb_lt; auto).
  cbn [orb] in TN.
  destruct (root_take _ rd fm n _ acc) as [r f']. cbn [fst] in TN. subst r.
  destruct e; try reflexivity; congruence.
Qed.

(** The factory after a spill that ends the reading. *)
Lemma root_next_stop rd fmt s rest hs : read_spill rd fmt s = (hs, Some MIndex) -> forall ss, clean rd fmt ss ->
  match hits_in rd fmt ss with
  | [] => root_next rd fmt (ss ++ s :: rest) = inl (MBadEvent, mkRoot hs (s :: rest))
  | h :: t => exists hs2 ss', root_next rd fmt (ss ++ s :: rest) = inr (h, mkRoot hs2 (ss' ++ s :: rest)) /\
                clean rd fmt ss' /\ t = hs2 ++ hits_in rd fmt ss'
  end.
Proof.
  intros S. induction ss as [|x ss IH]; intros C.
  - cbn [app root_next]. rewrite S. reflexivity.
  - cbn [app root_next]. rewrite hits_in_cons. pose proof (C x (or_introl eq_refl)) as E.
    destruct (read_spill rd fmt x) as [hx e]. cbn [snd fst] in *. subst e.
    assert (C' : clean rd fmt ss) by (intros y I; apply C; simpl; auto).
    destruct (filter (rd_test rd) hx) as [|h0 h1]; cbn [app]; [apply IH, C'|]. exists h1, ss. auto.
Qed.
Lemma root_take_stop rd fmt n s rest hs : read_spill rd fmt s = (hs, Some MIndex) -> (n < 0)%Z ->
  forall fuel hs0 ss acc, clean rd fmt ss -> (List.length hs0 + List.length (hits_in rd fmt ss) < fuel)%nat ->
  root_take fuel rd fmt n (mkRoot hs0 (ss ++ s :: rest)) acc = (inr (acc ++ hs0 ++ hits_in rd fmt ss), mkRoot hs (s :: rest)).
Proof.
  intros S N. induction fuel as [|fuel IH]; intros hs0 ss acc C L; [lia|].
  cbn [root_take]. replace (Z.ltb n 0) with true by (symmetry; apply Z.ltb_lt; auto). cbn [orb].
  unfold root_make_hit. cbn [rf_hits rf_spills]. destruct hs0 as [|h hs0].
  - pose proof (root_next_stop rd fmt s rest hs S ss C) as NS. cbn [List.length Nat.add app] in *.
    destruct (hits_in rd fmt ss) as [|h t].
    + rewrite NS, app_nil_r. reflexivity.
    + destruct NS as (hs2 & ss' & NS & C' & ->). rewrite NS.
      rewrite IH; auto; [|cbn [List.length] in L; rewrite app_length in L; lia]. rewrite <- app_assoc. reflexivity.
  - rewrite IH; auto; [|cbn [List.length] in L; lia]. rewrite <- app_assoc. reflexivity.
Qed.
