(** C81: reading the hits of MAUS ROOT files. *)
From Coq Require Import Reals ZArith String List Bool Lia Lra.
From Verif Require Import Num HitcoreModel PyLibModel HitPyModel TableModel IOModel IOSpec CommonModel IOProofs
  MausModel MausSpec MausRootModel MausRootSpec MausRootProofs.
Import ListNotations.
Open Scope list_scope.
Open Scope string_scope.

(** The type asked for, in the words of the file formats. *)
Definition asked (t : string) (fm : RootFormat) : Prop :=
  In (t, fm) [("maus_root_virtual_hit", FVirtual); ("maus_root_primary", FPrimary); ("maus_root_step", FStep);
              ("maus_root_scifi_trackpoint", FScifi); ("maus_root_scifi_and_tof", FScifiTof)].
Lemma asked_format t fm : asked t fm -> root_format t = Some fm.
Proof. unfold asked. cbn [In]. intros H. repeat (destruct H as [H|H]; [inversion H; subst; reflexivity|]). destruct H. Qed.

(** One type: the first n hits, in the order of the file, that pass the test; all of them if n is
    negative. *)
Theorem C81_read rd n t fm spills : asked t fm -> Forall (readable rd fm) spills ->
  read_maus_root_file rd n (Some [t]) spills =
  inr (at_most n (filter (rd_test rd) (file_hits (rd_cut rd) fm spills))).
Proof.
  intros A F. apply asked_format in A. unfold read_maus_root_file.
  rewrite (read_types_first rd n spills t fm []); auto.
  - cbn [flat_map]. rewrite A, app_nil_r. reflexivity.
  - constructor; auto. rewrite A. auto.
Qed.
Print Assumptions C81_read.

(** Several types: all hits of the first type, then those of the second; the limit counts all. *)
Theorem C81_types rd n tfs spills :
  Forall (fun p => asked (fst p) (snd p) /\ Forall (readable rd (snd p)) spills) tfs ->
  read_maus_root_file rd n (Some (map fst tfs)) spills =
  inr (at_most n (filter (rd_test rd) (flat_map (fun p => file_hits (rd_cut rd) (snd p) spills) tfs))).
Proof.
  intros F. unfold read_maus_root_file. destruct tfs as [|[t fm] tfs].
  - cbn [map root_read_types flat_map filter]. unfold at_most. destruct (n <? 0)%Z; auto. rewrite firstn_nil. reflexivity.
  - cbn [map fst]. inversion F as [|? ? (A & R) F']; subst. cbn [fst snd] in *.
    rewrite (read_types_first rd n spills t fm).
    + f_equal. f_equal. f_equal. cbn [flat_map snd]. rewrite (asked_format _ _ A). f_equal.
      clear - F'. induction F' as [|[t' fm'] l (A & R) F' IH]; auto.
      cbn [map flat_map fst snd] in *. rewrite (asked_format _ _ A). f_equal. exact IH.
    + apply asked_format. auto.
    + change (t :: map fst tfs) with (map fst ((t, fm) :: tfs)). clear - F.
      induction F as [|[t' fm'] l (A & R) F' IH]; constructor; auto.
      cbn [fst snd] in *. rewrite (asked_format _ _ A). auto.
Qed.
Print Assumptions C81_types.

(** Without a list of types: virtual hits, primaries, steps, tracker points, tracker points with
    times. *)
Theorem C81_default rd n spills : (forall fm, Forall (readable rd fm) spills) ->
  read_maus_root_file rd n None spills =
  inr (at_most n (filter (rd_test rd) (flat_map (fun fm => file_hits (rd_cut rd) fm spills)
                                                [FVirtual; FPrimary; FStep; FScifi; FScifiTof]))).
Proof.
  intros R.
  apply (C81_types rd n [("maus_root_virtual_hit", FVirtual); ("maus_root_primary", FPrimary); ("maus_root_step", FStep);
              ("maus_root_scifi_trackpoint", FScifi); ("maus_root_scifi_and_tof", FScifiTof)] spills).
  repeat (constructor; [split; [unfold asked; simpl; auto 10|apply R]|]). constructor.
Qed.
Print Assumptions C81_default.

(** Several files: the limit holds for each of them. *)
Theorem C81_files rd n t fm files : files <> [] -> asked t fm -> Forall (Forall (readable rd fm)) files ->
  new_from_maus_root rd n t files =
  inr (flat_map (fun f => at_most n (filter (rd_test rd) (file_hits (rd_cut rd) fm f))) files).
Proof.
  intros NE A F. assert (G : root_read_files rd n t files =
    inr (flat_map (fun f => at_most n (filter (rd_test rd) (file_hits (rd_cut rd) fm f))) files)).
  - clear NE. induction F as [|f fs R F IH]; auto. cbn [root_read_files flat_map].
    rewrite (C81_read rd n t fm f A R), IH. reflexivity.
  - destruct files; [destruct NE; auto|exact G].
Qed.
Print Assumptions C81_files.

(** A primary slower than its mass ends the reading without an exception: neither the hits of
    its spill nor those of later spills are returned. *)
Theorem C81_primaries_stop rd n ss s rest : Forall (readable rd FPrimary) ss -> fits s ->
  Forall (fun e => flying (mc_primary e) \/ too_slow (mc_primary e)) (rs_mc s) ->
  Exists (fun e => too_slow (mc_primary e)) (rs_mc s) ->
  read_maus_root_file rd n (Some ["maus_root_primary"]) (ss ++ s :: rest) =
  inr (at_most n (filter (rd_test rd) (file_hits (rd_cut rd) FPrimary ss))).
Proof.
  intros R F A X. destruct (slow_spill rd s F A X) as (hs & S).
  rewrite (read_one_tail rd n "maus_root_primary" FPrimary ss s rest hs MIndex eq_refl R S). cbn [bad_event].
  rewrite <- (at_most_cond n). destruct (Z.ltb n 0 || _)%bool; reflexivity.
Qed.
Print Assumptions C81_primaries_stop.

(** A step of a particle that is not in the tables: KeyError, unless the limit is reached before
    its spill. *)
Theorem C81_unknown_step rd n ss s e t rest : Forall (readable rd FStep) ss -> fits s ->
  In e (rs_mc s) -> In t (mc_tracks e) -> mt_steps t <> [] -> ~ known_particle (mt_pid t) ->
  (n < 0 \/ Z.of_nat (List.length (filter (rd_test rd) (file_hits (rd_cut rd) FStep ss))) < n)%Z ->
  read_maus_root_file rd n (Some ["maus_root_step"]) (ss ++ s :: rest) = inl (RErr MKey).
Proof.
  intros R F Ie It NE K N. destruct (unknown_spill rd s e t F Ie It NE K) as (hs & S).
  rewrite (read_one_tail rd n "maus_root_step" FStep ss s rest hs MKey eq_refl R S). cbn [bad_event].
  replace (Z.ltb n 0 || _)%bool with true; auto. symmetry. apply orb_true_iff.
  destruct N as [N|N]; [left|right]; apply Z.ltb_lt; auto.
Qed.
Print Assumptions C81_unknown_step.

(** With Python 3.7 or later a file that has a reconstructed event cannot be read as tracker
    points, whatever the event holds ... *)
Theorem C81_python37_refuted rd n t fm ss s e es rest :
  asked t fm -> fm = FScifi \/ fm = FScifiTof -> rd_pep479 rd = true ->
  Forall (readable rd fm) ss -> fits s -> rs_recon s = e :: es ->
  Forall (fun t => passes (rd_cut rd) t = true -> Forall accepted_point (snd t)) (re_tracks e) ->
  (n < 0 \/ 0 < n)%Z ->
  read_maus_root_file rd n (Some [t]) (ss ++ s :: rest) = inl (RErr MRuntime).
Proof.
  intros A FM P R F E AC N.
  pose proof (python37_spill rd fm s e es FM F P E AC) as S.
  rewrite (read_one_tail rd n t fm ss s rest [] MRuntime (asked_format _ _ A) R S). cbn [bad_event].
  replace (file_hits (rd_cut rd) fm ss) with (@nil RHit).
  - cbn [filter List.length]. replace (Z.ltb n 0 || _)%bool with true; auto. symmetry. apply orb_true_iff.
    destruct N as [N|N]; [left|right]; apply Z.ltb_lt; auto.
  - clear - FM P R. unfold file_hits. induction R as [|x xs (_ & Hx) R IH]; auto. cbn [flat_map]. rewrite <- IH.
    destruct FM as [-> | ->]; destruct Hx as [Hx | (Hx & _)]; try congruence;
      unfold spill_hits; rewrite Hx; reflexivity.
Qed.
Print Assumptions C81_python37_refuted.

(** ... nor with the default types: the hits read before are lost. *)
Theorem C81_default_refuted rd n ss s e es rest : rd_pep479 rd = true ->
  Forall (fun fm => Forall (readable rd fm) (ss ++ s :: rest)) [FVirtual; FPrimary; FStep] ->
  Forall (readable rd FScifi) ss -> rs_recon s = e :: es ->
  Forall (fun t => passes (rd_cut rd) t = true -> Forall accepted_point (snd t)) (re_tracks e) ->
  (n < 0)%Z ->
  read_maus_root_file rd n None (ss ++ s :: rest) = inl (RErr MRuntime).
Proof.
  intros P F R E AC N.
  assert (FS : fits s).
  { inversion F as [|? ? F1 _]; subst. rewrite Forall_app in F1. destruct F1 as [_ F1]. inversion F1 as [|? ? H _]; subst.
    apply H. }
  pose proof (python37_spill rd FScifi s e es (or_introl eq_refl) FS P E AC) as S.
  unfold read_maus_root_file.
  destruct (read_types_prefix rd n (ss ++ s :: rest) ["maus_root_scifi_trackpoint"; "maus_root_scifi_and_tof"]
    ["maus_root_virtual_hit"; "maus_root_primary"; "maus_root_step"] None []) as (fac & G).
  - inversion F as [|? ? F1 F']; subst. inversion F' as [|? ? F2 F'']; subst. inversion F'' as [|? ? F3 _]; subst.
    constructor; [exists FVirtual; auto|]. constructor; [exists FPrimary; auto|].
    constructor; [exists FStep; auto|constructor].
  - left. auto.
  - etransitivity; [exact G|]. apply (read_types_raise rd n ss s rest "maus_root_scifi_trackpoint" _ FScifi [] MRuntime); auto; discriminate.
Qed.
Print Assumptions C81_default_refuted.

(** ---- a file ---------------------------------------------------------------------------------- *)

Definition p3 (x y z : R) : R * R * R := (x, y, z).
Definition ex_vh (st : Z) (x : R) : VirtualHit :=
  mkVirtual (p3 x 2 3) (p3 3 4 0) (p3 0 0 1) (p3 0 1 0) 22 st 7 5 0 0 6 8.
Definition ex_step (x : R) : Step := mkStep (p3 x 0 0) 1 (p3 0 0 200) (p3 0 0 0) (p3 0 0 0) (p3 0 0 1) 2 3.
Definition ex_primary (e : R) : Primary := mkPrimary (p3 1 2 3) (p3 3 4 0) 22 e 9.
Definition ex_event (x : R) (pid : Z) : McEvent :=
  mkMcEvent [ex_vh 1 x; ex_vh 2 x] [mkMcTrack pid 4 [ex_step 1; ex_step 2]; mkMcTrack 12345 5 []] (ex_primary 5).
Definition ex_tof : TofEvent := mkTof [] [30]%R [10; 12]%R [40; 44]%R [] [].
Definition ex_recon : ReconEvent := mkRecon [(1 / 2, [mkTP 0 1 2 (p3 1 1 1) (p3 0 0 3)])]%R ex_tof.
Definition ex_spill (k : Z) (pid : Z) (rec : list ReconEvent) : RootSpill := mkSpill k [ex_event 1 pid; ex_event 10 pid] rec.
(** Hits at positive stations above 1. *)
Definition ex_test (h : RHit) : bool := Z.ltb 1 (h_int h Istation).
Definition ex_rd (c : RCtx) (pep : bool) (test : RHit -> bool) : Reading := mkReading pep c (-1)%R test.

Ltac ints := unfold in32, small; cbn; lia.
Lemma ex_fits k pid rec : in32 k -> in32 pid -> (rec = [] \/ rec = [ex_recon]) -> fits (ex_spill k pid rec).
Proof.
  intros K P R. split; [exact K|]. split; [ints|]. split; [destruct R as [-> | ->]; ints|]. split.
  - assert (E : forall x, Forall (fun v => in32 (vh_pid v) /\ in32 (vh_station v) /\ in32 (vh_track v)) (mc_virtuals (ex_event x pid)) /\
      Forall (fun t => in32 (mt_pid t) /\ in32 (mt_id t) /\ small (List.length (mt_steps t))) (mc_tracks (ex_event x pid)) /\
      in32 (pr_pid (mc_primary (ex_event x pid)))).
    { intros x. split; [|split].
      - repeat (constructor; [split; [|split]; ints|]). constructor.
      - constructor; [split; [exact P|split; ints]|]. constructor; [split; [|split]; ints|constructor].
      - ints. }
    constructor; [apply E|]. constructor; [apply E|constructor].
  - destruct R as [-> | ->]; repeat constructor; ints.
Qed.
Lemma ex_readable (c : RCtx) (pep : bool) test k fm : in32 k -> readable (ex_rd c pep test) fm (ex_spill k 13 (if pep then [] else [ex_recon])).
Proof.
  intros K. assert (F : fits (ex_spill k 13 (if pep then [] else [ex_recon]))) by (apply ex_fits; auto; [ints|destruct pep; auto]).
  split; auto. destruct fm; auto.
  - assert (FL : flying (ex_primary 5)).
    { unfold flying, norm2, mass_for. cbn. lra. }
    constructor; [exact FL|]. constructor; [exact FL|constructor].
  - assert (T : forall x, Forall (fun t => mt_steps t = [] \/ known_particle (mt_pid t)) (mc_tracks (ex_event x 13))).
    { intros x. constructor; [right; split; discriminate|]. constructor; [left; reflexivity|constructor]. }
    constructor; [apply T|]. constructor; [apply T|constructor].
  - destruct pep; [left; reflexivity|]. right. split; auto.
    constructor; [|constructor]. constructor; [|constructor]. intros _. constructor; [|constructor].
    unfold accepted_point. cbn. lia.
  - destruct pep; [left; reflexivity|]. right. split; auto.
    constructor; [|constructor]. constructor; [|constructor]. intros _. constructor; [|constructor].
    unfold accepted_point. cbn. lia.
Qed.

(** Two spills: eight virtual hits of which four pass the test; a limit of three. *)
Example C81_case (c : RCtx) (pep : bool) :
  let spills := [ex_spill 4 13 (if pep then [] else [ex_recon]); ex_spill 9 13 (if pep then [] else [ex_recon])] in
  read_maus_root_file (ex_rd c pep ex_test) 3 (Some ["maus_root_virtual_hit"]) spills =
    inr [virtual_hit 4 0 (ex_vh 2 1); virtual_hit 4 1 (ex_vh 2 10); virtual_hit 9 0 (ex_vh 2 1)] /\
  h_dbl (virtual_hit 4 0 (ex_vh 2 1)) Venergy = 5%R /\
  read_maus_root_file (ex_rd c pep ex_test) (-1) (Some ["maus_root_primary"]) spills = inr [] /\
  exists hs, read_maus_root_file (ex_rd c pep (fun _ => true)) 13 (Some ["maus_root_virtual_hit"; "maus_root_primary"; "maus_root_step"]) spills =
    inr hs /\ List.length hs = 13%nat /\
    nth_error hs 12 = Some (step_hit 4 0 (mkMcTrack 13 4 [ex_step 1; ex_step 2]) 0 (ex_step 1)).
Proof.
  assert (R : forall test fm, Forall (readable (ex_rd c pep test) fm)
    [ex_spill 4 13 (if pep then [] else [ex_recon]); ex_spill 9 13 (if pep then [] else [ex_recon])]).
  { intros. constructor; [apply ex_readable; ints|]. constructor; [apply ex_readable; ints|constructor]. }
  cbv zeta. split; [|split; [|split]].
  - rewrite (C81_read _ 3 _ FVirtual); auto. left. reflexivity.
  - cbn. unfold norm2. cbn. replace (0 * 0 + (3 * 3 + 4 * 4 + 0 * 0))%R with (5 * 5)%R by ring.
    apply sqrt_square. lra.
  - rewrite (C81_read _ (-1) _ FPrimary); auto. right. left. reflexivity.
  - pose proof (C81_types (ex_rd c pep (fun _ => true)) 13
      [("maus_root_virtual_hit", FVirtual); ("maus_root_primary", FPrimary); ("maus_root_step", FStep)]
      [ex_spill 4 13 (if pep then [] else [ex_recon]); ex_spill 9 13 (if pep then [] else [ex_recon])]) as H.
    eexists. split; [apply H|split; reflexivity].
    repeat (constructor; [split; [unfold asked; simpl; auto|apply R]|]). constructor.
Qed.

(** Tracker points with the time of flight, with Python 3.6 or earlier. *)
Example C81_tof_case (c : RCtx) :
  exists h, read_maus_root_file (ex_rd c false (fun _ => true)) (-1) (Some ["maus_root_scifi_and_tof"]) [ex_spill 4 13 [ex_recon]] = inr [h] /\
    h_dbl h Vt = 31%R /\ h_int h Istation = 90012%Z /\ h_int h Ispill = 4%Z /\ h_dbl h Vpz = 3%R.
Proof.
  rewrite (C81_read _ (-1) _ FScifiTof).
  - cbv [at_most Z.ltb Z.compare filter ex_rd rd_test rd_cut file_hits flat_map spill_hits ex_spill number rs_recon rs_number
      fst snd re_tof ex_recon flight_time ex_tof tof0_points tof1_points tof0_slabs tof1_slabs between_means point_hits re_tracks
      app map passes].
    destruct (Rlt_dec 0 (-1)) as [L|_]; [lra|].
    eexists. split; [reflexivity|]. split; [|repeat split; reflexivity].
    change (mean_time [40; 44] - mean_time [10; 12] = 31)%R. unfold mean_time, sum. cbn. lra.
  - right. right. right. right. left. reflexivity.
  - constructor; [|constructor]. apply (ex_readable c false). ints.
Qed.

(** The limit is not the number of hits read when there are several files. *)
Theorem C81_files_limit_refuted (c : RCtx) : exists rd t files hs,
  new_from_maus_root rd 1 t files = inr hs /\ List.length hs = 2%nat.
Proof.
  exists (ex_rd c true (fun _ => true)), "maus_root_virtual_hit", [[ex_spill 4 13 []]; [ex_spill 9 13 []]].
  eexists. split.
  - apply (C81_files (ex_rd c true (fun _ => true)) 1 "maus_root_virtual_hit" FVirtual).
    + discriminate.
    + left. reflexivity.
    + constructor; [constructor; [apply (ex_readable c true); ints|constructor]|].
      constructor; [constructor; [apply (ex_readable c true); ints|constructor]|constructor].
  - reflexivity.
Qed.
Print Assumptions C81_files_limit_refuted.

(** A type that does not exist: UnboundLocalError if it comes first ... *)
Theorem C81_unknown_type_first rd n t ts spills : (forall fm, ~ asked t fm) -> (n < 0 \/ 0 < n)%Z ->
  read_maus_root_file rd n (Some (t :: ts)) spills = inl RUnbound.
Proof.
  intros U N. unfold read_maus_root_file. cbn [root_read_types].
  assert (E : root_format t = None).
  { unfold root_format, asked in *. cbn [assoc].
    repeat match goal with |- context[String.eqb ?a ?b] => destruct (String.eqb_spec a b);
      [subst; exfalso; eapply U; simpl; eauto 8|] end. reflexivity. }
  rewrite E. cbn [List.length]. replace (Z.ltb n 0 || _)%bool with true; auto.
  symmetry. apply orb_true_iff. destruct N as [N|N]; [left|right]; apply Z.ltb_lt; auto.
Qed.
Print Assumptions C81_unknown_type_first.

(** ... and no effect at all behind a type that exists. *)
Theorem C81_unknown_type_refuted rd n t fm u spills : asked t fm -> (forall fm, ~ asked u fm) ->
  Forall (readable rd fm) spills ->
  read_maus_root_file rd n (Some [t; u]) spills =
  inr (at_most n (filter (rd_test rd) (file_hits (rd_cut rd) fm spills))).
Proof.
  intros A U R. assert (E : root_format u = None).
  { unfold root_format, asked in *. cbn [assoc].
    repeat match goal with |- context[String.eqb ?a ?b] => destruct (String.eqb_spec a b);
      [subst; exfalso; eapply U; simpl; eauto 8|] end. reflexivity. }
  apply asked_format in A. unfold read_maus_root_file.
  rewrite (read_types_first rd n spills t fm [u]); auto.
  - cbn [flat_map]. rewrite A, E, !app_nil_r. reflexivity.
  - constructor; [rewrite A; auto|]. constructor; [rewrite E; auto|constructor].
Qed.
Print Assumptions C81_unknown_type_refuted.

(** Behind a type whose reading was ended by a slow primary, a type that does not exist brings back the
    primaries before the slow one, not tested; still nothing after it. *)
Theorem C81_unknown_type_stale rd n u ss s es e es' rest : (n < 0)%Z -> (forall fm, ~ asked u fm) ->
  Forall (readable rd FPrimary) ss -> fits s -> rs_mc s = (es ++ e :: es')%list ->
  Forall (fun e => flying (mc_primary e)) es -> too_slow (mc_primary e) ->
  read_maus_root_file rd n (Some ["maus_root_primary"; u]) (ss ++ s :: rest) =
  inr (filter (rd_test rd) (file_hits (rd_cut rd) FPrimary ss) ++
       map (fun p => primary_hit (rs_number s) (fst p) (mc_primary (snd p))) (number 0 es))%list.
Proof.
  intros N U R F E A SL. assert (EU : root_format u = None).
  { unfold root_format, asked in *. cbn [assoc].
    repeat match goal with |- context[String.eqb ?a ?b] => destruct (String.eqb_spec a b);
      [subst; exfalso; eapply U; simpl; eauto 8|] end. reflexivity. }
  assert (S : read_spill rd FPrimary s =
    (map (fun p => primary_hit (rs_number s) (fst p) (mc_primary (snd p))) (number 0 es), Some MIndex)).
  { unfold read_spill, spill_primaries. rewrite enumerate0, map_map. cbn [fst snd].
    assert (NA : exists l', number 0 (rs_mc s) = (number 0 es ++ (List.length es, e) :: l')%list).
    { rewrite E. clear. change (List.length es) with (0 + List.length es)%nat. generalize 0%nat as i.
      induction es as [|a es IH]; intros i; cbn [app number List.length].
      - rewrite Nat.add_0_r. eauto.
      - destruct (IH (S i)) as (l' & ->). exists l'. rewrite Nat.add_succ_r. reflexivity. }
    destruct NA as (l' & NA).
    assert (FE : forall p, In p (number 0 (rs_mc s)) -> small (fst p) /\ in32 (rs_number s) /\ in32 (pr_pid (mc_primary (snd p)))).
    { intros p I. destruct (fits_event s p F I) as (H1 & H2 & _ & _ & H3). auto. }
    rewrite NA in *. rewrite map_app, gather_app.
    rewrite (gather_map _ _ (fun p => primary_hit (rs_number s) (fst p) (mc_primary (snd p)))).
    - cbn [app map gather fst snd]. destruct (FE (List.length es, e)) as (H1 & H2 & H3); [apply in_or_app; right; left; reflexivity|].
      cbn [fst snd] in *. rewrite root_primary_slow; auto.
    - intros p I. cbn [fst snd]. destruct (FE p) as (H1 & H2 & H3); [apply in_or_app; left; exact I|].
      apply root_primary_flying; auto. apply number_in in I. rewrite Forall_forall in A. apply A, I. }
  unfold read_maus_root_file. cbn [root_read_types]. rewrite EU.
  change (root_format "maus_root_primary") with (Some FPrimary). cbv iota.
  destruct (hits_in_ok rd FPrimary ss R) as (C & HE).
  rewrite (root_take_stop rd FPrimary n s rest _ S N _ [] ss []); auto.
  2: { unfold root_fuel, hits_in. cbn [rf_hits rf_spills List.length Nat.add]. rewrite flat_map_app, app_length.
       pose proof (filter_len (rd_test rd) (flat_map (fun s => fst (read_spill rd FPrimary s)) ss)). lia. }
  cbn [app]. rewrite (root_take_stop rd FPrimary n s rest _ S N _ _ [] _).
  - unfold hits_in at 2. cbn [flat_map filter]. rewrite app_nil_r, <- HE. reflexivity.
  - intros y [].
  - unfold root_fuel, hits_in. cbn [rf_hits rf_spills flat_map filter List.length]. lia.
Qed.
Print Assumptions C81_unknown_type_stale.

(** Files that do not exist. *)
Theorem C81_no_files rd n t : new_from_maus_root rd n t [] = inl (RErr MIO).
Proof. reflexivity. Qed.
Print Assumptions C81_no_files.

(** Cases for the spills that raise. *)
Example C81_stop_case (c : RCtx) :
  exists s, fits s /\ Forall (fun e => flying (mc_primary e) \/ too_slow (mc_primary e)) (rs_mc s) /\
    Exists (fun e => too_slow (mc_primary e)) (rs_mc s) /\
    read_maus_root_file (ex_rd c true (fun _ => true)) (-1) (Some ["maus_root_primary"])
      [ex_spill 4 13 []; s; ex_spill 9 13 []] =
    inr [primary_hit 4 0 (ex_primary 5); primary_hit 4 1 (ex_primary 5)].
Proof.
  set (s := mkSpill 5 [mkMcEvent [] [] (ex_primary 5); mkMcEvent [] [] (mkPrimary (p3 0 0 0) (p3 0 0 1) 13 1 0)] []).
  assert (F : fits s) by (repeat split; try ints; repeat constructor; ints).
  assert (SL : too_slow (mkPrimary (p3 0 0 0) (p3 0 0 1) 13 1 0)) by (unfold too_slow, mass_for; cbn; lra).
  assert (FL : flying (ex_primary 5)) by (unfold flying, norm2, mass_for; cbn; lra).
  assert (A : Forall (fun e => flying (mc_primary e) \/ too_slow (mc_primary e)) (rs_mc s)).
  { constructor; [left; exact FL|]. constructor; [right; exact SL|constructor]. }
  assert (X : Exists (fun e => too_slow (mc_primary e)) (rs_mc s)) by (right; left; exact SL).
  exists s. split; auto. split; auto. split; auto.
  apply (C81_primaries_stop (ex_rd c true (fun _ => true)) (-1) [ex_spill 4 13 []] s [ex_spill 9 13 []]); auto.
  constructor; [apply (ex_readable c true); ints|constructor].
Qed.
(** Even with a test that no hit passes. *)
Example C81_stale_case (c : RCtx) : exists s,
  read_maus_root_file (ex_rd c true (fun _ => false)) (-1) (Some ["maus_root_primary"; "nonsense"])
    [ex_spill 4 13 []; s; ex_spill 9 13 []] = inr [primary_hit 5 0 (ex_primary 5)].
Proof.
  set (s := mkSpill 5 [mkMcEvent [] [] (ex_primary 5); mkMcEvent [] [] (mkPrimary (p3 0 0 0) (p3 0 0 1) 13 1 0)] []).
  exists s.
  etransitivity; [apply (C81_unknown_type_stale (ex_rd c true (fun _ => false)) (-1) "nonsense" [ex_spill 4 13 []] s [mkMcEvent [] [] (ex_primary 5)]
    (mkMcEvent [] [] (mkPrimary (p3 0 0 0) (p3 0 0 1) 13 1 0)) [] [ex_spill 9 13 []])|reflexivity].
  - lia.
  - intros fm A. unfold asked in A. simpl in A. repeat (destruct A as [A|A]; [discriminate|]). contradiction.
  - constructor; [apply (ex_readable c true); ints|constructor].
  - repeat split; try ints; repeat constructor; ints.
  - reflexivity.
  - constructor; [|constructor]. unfold flying, norm2, mass_for; cbn; lra.
  - unfold too_slow, mass_for; cbn; lra.
Qed.
Example C81_unknown_step_case (c : RCtx) :
  read_maus_root_file (ex_rd c true (fun _ => true)) 5 (Some ["maus_root_step"]) [ex_spill 4 13 []; ex_spill 5 12345 []] =
  inl (RErr MKey).
Proof.
  apply (C81_unknown_step (ex_rd c true (fun _ => true)) 5 [ex_spill 4 13 []] (ex_spill 5 12345 [])
           (ex_event 1 12345) (mkMcTrack 12345 4 [ex_step 1; ex_step 2]) []).
  - constructor; [apply (ex_readable c true); ints|constructor].
  - apply ex_fits; auto; ints.
  - left. reflexivity.
  - left. reflexivity.
  - discriminate.
  - intros (K & _). apply K. reflexivity.
  - right. cbn. lia.
Qed.
Example C81_python37_case (c : RCtx) :
  read_maus_root_file (ex_rd c true (fun _ => true)) (-1) (Some ["maus_root_scifi_trackpoint"]) [ex_spill 4 13 [ex_recon]] =
  inl (RErr MRuntime).
Proof.
  apply (C81_python37_refuted (ex_rd c true (fun _ => true)) (-1) "maus_root_scifi_trackpoint" FScifi [] (ex_spill 4 13 [ex_recon])
    ex_recon [] []); auto.
  - right. right. right. left. reflexivity.
  - apply ex_fits; auto; ints.
  - constructor; [|constructor]. intros _. constructor; [|constructor]. unfold accepted_point. cbn. lia.
  - left. lia.
Qed.
Example C81_default_case (c : RCtx) :
  (exists hs, read_maus_root_file (ex_rd c false (fun _ => true)) (-1) None [ex_spill 4 13 [ex_recon]] = inr hs /\
     List.length hs = 12%nat) /\
  read_maus_root_file (ex_rd c true (fun _ => true)) (-1) None [ex_spill 4 13 [ex_recon]] = inl (RErr MRuntime).
Proof.
  split.
  - rewrite C81_default.
    + eexists. split; [reflexivity|].
      cbv [at_most Z.ltb Z.compare filter ex_rd rd_test rd_cut file_hits flat_map spill_hits ex_spill number rs_recon rs_number
        fst snd re_tof ex_recon flight_time ex_tof tof0_points tof1_points tof0_slabs tof1_slabs between_means point_hits re_tracks
        app map passes].
      destruct (Rlt_dec 0 (-1)) as [L|_]; [lra|reflexivity].
    + intros fm. constructor; [apply (ex_readable c false); ints|constructor].
  - apply (C81_default_refuted (ex_rd c true (fun _ => true)) (-1) [] (ex_spill 4 13 [ex_recon]) ex_recon [] []); auto.
    + assert (RE : forall fm, fm = FVirtual \/ fm = FPrimary \/ fm = FStep ->
        Forall (readable (ex_rd c true (fun _ => true)) fm) ([] ++ [ex_spill 4 13 [ex_recon]])).
      { intros fm H. constructor; [|constructor].
        pose proof (ex_readable c false (fun _ => true) 4 fm ltac:(ints)) as X.
        destruct H as [-> | [-> | ->]]; exact X. }
      repeat (constructor; [apply RE; auto|]). constructor.
    + constructor; [|constructor]. intros _. constructor; [|constructor]. unfold accepted_point. cbn. lia.
    + lia.
Qed.
