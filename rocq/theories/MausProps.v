(** Theorems about the MAUS formats: C40, C54, C66, C67, C68. *)
From Coq Require Import Reals ZArith Bool String Ascii Lia Lra List Permutation.
From Verif Require Import Num WeightModel HitcoreModel HitcoreSpec PyLibModel HitPyModel HitPySpec
  TableModel IOModel IOSpec IOProofs CommonModel MausModel MausSpec MausProofs MausReadProofs.
Import ListNotations.
Open Scope list_scope.

(** ---- C40: groups and trees ---------------------------------------------------------------- *)

(** One group for every value of the attribute, in the order in which the values appear; a
    group has all the hits with this value, in their order. *)
Theorem C40_groups {A} (attr : string -> A -> Z) (l : list A) (k : string) :
  let gs := split_list_by_equality attr l k in
  gs = map (fun v => filter (fun a => Z.eqb (attr k a) v) l) (firsts (map (attr k) l)) /\
  NoDup (firsts (map (attr k) l)) /\
  (forall v, In v (firsts (map (attr k) l)) <-> exists a, In a l /\ attr k a = v) /\
  Permutation (concat gs) l /\
  Forall (fun g => g <> []) gs.
Proof.
  cbv zeta. rewrite split_groups. split; [reflexivity|]. split; [apply firsts_nodup|].
  split; [|split; [apply groups_perm|]].
  - intros v. rewrite in_firsts, in_map_iff. split; intros (a & H1 & H2); eauto.
  - apply Forall_forall. intros g. apply groups_nonempty.
Qed.
Print Assumptions C40_groups.

(** For every path and every list of hits: either every hit is in the tree exactly once, or
    the path has place for one hit only where two hits agree on all attributes and IOError
    is raised. *)
Theorem C40_tree {A} (attr : string -> A -> Z) (dict : A -> Json) path (hits : list A) :
  path <> [] -> hits <> [] ->
  (ends_in_key path = true /\ clash attr (splits path) hits /\ maus_tree attr dict path hits = inl MIO) \/
  (~ (ends_in_key path = true /\ clash attr (splits path) hits) /\
   exists t, maus_tree attr dict path hits = inr t /\ Permutation (leaves path t) (map dict hits)).
Proof. intros P H. apply (maus_tree_good attr dict path P hits H). Qed.
Print Assumptions C40_tree.

(** The documents of a bunch of virtual hits; of primaries; IOError. *)
Theorem C40_virtual_documents (c : RCtx) hits :
  write_maus c "maus_json_virtual_hit" hits = inr (virtual_spills hits).
Proof. apply write_virtual. Qed.
Print Assumptions C40_virtual_documents.

Theorem C40_primary_documents (c : RCtx) hits :
  (NoDup (map (fun h => (event_of h, particle_of h)) hits) ->
   write_maus c "maus_json_primary" hits = inr (primary_spills hits)) /\
  (~ NoDup (map (fun h => (event_of h, particle_of h)) hits) ->
   write_maus c "maus_json_primary" hits = inl MIO).
Proof.
  assert (E : clash (int_attr c) ["event_number"; "particle_number"]%string hits <->
              ~ NoDup (map (fun h => (event_of h, particle_of h)) hits)).
  { induction hits as [|h hits IH]; cbn [clash map].
    - split; [tauto|]. intros N. destruct N. constructor.
    - rewrite IH. split.
      + intros [(b & I & H)|H] N; inversion N as [|x xs N1 N2]; subst; [|tauto].
        apply N1. apply in_map_iff. exists b. split; auto.
        pose proof (H "event_number"%string (or_introl eq_refl)) as E1.
        pose proof (H "particle_number"%string (or_intror (or_introl eq_refl))) as E2.
        rewrite int_event in E1. rewrite int_particle in E2. rewrite E1, E2. reflexivity.
      + intros N.
        destruct (in_dec (fun a b : Z * Z => ltac:(repeat decide equality)) (event_of h, particle_of h)
                    (map (fun h => (event_of h, particle_of h)) hits)) as [I|I].
        * apply in_map_iff in I. destruct I as (b & E & I). left. exists b. split; auto.
          inversion E. intros k [<- | [<- | []]]; [rewrite int_event|rewrite int_particle]; congruence.
        * right. intros N'. apply N. constructor; auto. }
  split; intros N.
  - apply write_primary. rewrite E. tauto.
  - apply write_primary_io. apply E. auto.
Qed.
Print Assumptions C40_primary_documents.

(** ---- C66: written and read back ------------------------------------------------------------ *)

(** Virtual hits, read by the reader in which the methods that Python 3 lacks are replaced. *)
Theorem C66_round_trip (c : RCtx) hits n : Forall ints32 hits -> small (List.length hits) ->
  exists docs, write_maus c "maus_json_virtual_hit" hits = inr docs /\
    read_maus_json_file true c docs n ["maus_json_virtual_hit"%string] = inr (at_most n (restored_all hits)).
Proof.
  intros F L. exists (virtual_spills hits). split; [apply write_virtual|].
  destruct (round_virtual c hits F L) as [C E].
  rewrite (read_clean true c _ n _ "virtual_hit" []); auto. rewrite E. reflexivity.
Qed.
Print Assumptions C66_round_trip.

(** Every hit comes back once; position, momentum, fields, time, mass, charge, station, pid
    and particle number are kept. *)
Theorem C66_kept (c : RCtx) hits : Forall ints32 hits -> small (List.length hits) ->
  exists docs back hits',
    write_maus c "maus_json_virtual_hit" hits = inr docs /\
    read_maus_json_file true c docs (-1) ["maus_json_virtual_hit"%string] = inr back /\
    Permutation hits hits' /\ Forall2 keeps hits' back.
Proof.
  intros F L. destruct (C66_round_trip c hits (-1) F L) as (docs & W & R).
  destruct (restored_all_keeps hits) as (hits' & P & K).
  exists docs, (restored_all hits), hits'. split; auto.
Qed.
Print Assumptions C66_kept.

Definition blank (event particle : Z) : RHit :=
  @mkHit RNum (fun _ => 0%R) (fun i => match i with Ievent => event | Iparticle => particle | _ => 0%Z end).

(** The event number is not kept: it comes back as the number of the particle within its
    event, the event as the spill. *)
Theorem C66_event_number_refuted (c : RCtx) :
  ~ (forall hits, Forall ints32 hits -> small (List.length hits) ->
     exists docs back hits',
       write_maus c "maus_json_virtual_hit" hits = inr docs /\
       read_maus_json_file true c docs (-1) ["maus_json_virtual_hit"%string] = inr back /\
       Permutation hits hits' /\ Forall2 (fun h h' => event_of h' = event_of h) hits' back).
Proof.
  intros H. pose (hits := [blank 5 1]).
  assert (F : Forall ints32 hits).
  { constructor; [|constructor]. intros i. destruct i; cbn; lia. }
  assert (L : small (List.length hits)) by (unfold small; cbn; lia).
  destruct (H hits F L) as (docs & back & hits' & W & R & P & K).
  destruct (C66_round_trip c hits (-1) F L) as (docs' & W' & R').
  rewrite W in W'. assert (D : docs' = docs) by congruence. subst docs'.
  rewrite R, at_most_all in R' by lia. apply Permutation_length_1_inv in P. subst hits'.
  assert (B : back = restored_all hits) by congruence. subst back.
  inversion K as [|x y xs ys E]; subst. discriminate E.
Qed.
Print Assumptions C66_event_number_refuted.

(** As the code stands, Python 3 cannot read a file with a virtual hit in it. *)
Theorem C66_python3 (c : RCtx) hits n : hits <> [] -> n <> 0%Z ->
  exists docs, write_maus c "maus_json_virtual_hit" hits = inr docs /\
    read_maus_json_file false c docs n ["maus_json_virtual_hit"%string] = inl MAttribute.
Proof.
  intros NE NZ. exists (virtual_spills hits). split; [apply write_virtual|].
  unfold virtual_spills.
  destruct (groups event_of hits) as [|g gs] eqn:G.
  - pose proof (groups_perm event_of hits) as P. rewrite G in P. apply Permutation_nil in P. congruence.
  - assert (Ng : g <> []) by (apply (groups_nonempty event_of hits); rewrite G; simpl; auto).
    cbn [number map fst snd].
    destruct (groups particle_of g) as [|g' gs'] eqn:G'.
    + pose proof (groups_perm particle_of g) as P. rewrite G' in P. apply Permutation_nil in P. congruence.
    + assert (Ng' : g' <> []) by (apply (groups_nonempty particle_of g); rewrite G'; simpl; auto).
      destruct g' as [|h hs]; [congruence|]. cbn [map].
      unfold read_maus_json_file. cbn [read_types].
      change (json_format "maus_json_virtual_hit") with (Some "virtual_hit"%string). cbv beta iota.
      cbn [take_hits List.length f_hits f_docs]. unfold make_hit. cbn [f_hits f_docs next_spill].
      rewrite (python3_doc c 0 h hs).
      replace (Z.ltb n 0 || Z.ltb (Z.of_nat 0) n)%bool with true; [reflexivity|].
      symmetry. apply orb_true_iff. rewrite !Z.ltb_lt. lia.
Qed.
Print Assumptions C66_python3.

(** Primaries: position, momentum, time, energy and pid are kept, and mass and charge are
    those of the particle. *)
Theorem C66_primaries (c : RCtx) hits n : Forall ints32 hits -> Forall physical hits -> small (List.length hits) ->
  NoDup (map (fun h => (event_of h, particle_of h)) hits) ->
  exists docs, write_maus c "maus_json_primary" hits = inr docs /\
    read_maus_json_file true c docs n ["maus_json_primary"%string] = inr (at_most n (restored_primaries hits)).
Proof.
  intros F P L D. exists (primary_spills hits). split; [apply C40_primary_documents; auto|].
  destruct (round_primary c hits F P L) as [C E].
  rewrite (read_clean true c _ n _ "primary" []); auto. rewrite E. reflexivity.
Qed.
Print Assumptions C66_primaries.

(** ---- C67: files with several spills, types and documents ------------------------------------ *)

(** All hits of one type, up to n of them. *)
Theorem C67_virtual (c : RCtx) ds n : Forall sound_doc ds ->
  read_maus_json_file true c (map doc_of ds) n ["maus_json_virtual_hit"%string] = inr (at_most n (virtuals ds)).
Proof.
  intros F. destruct (file_virtual c ds F) as [C E].
  rewrite (read_clean true c _ n _ "virtual_hit" []); auto. rewrite E. reflexivity.
Qed.
Print Assumptions C67_virtual.

Theorem C67_primary (c : RCtx) ds n : Forall sound_doc ds ->
  read_maus_json_file true c (map doc_of ds) n ["maus_json_primary"%string] = inr (at_most n (primaries ds)).
Proof.
  intros F. destruct (file_primary c ds F) as [C E].
  rewrite (read_clean true c _ n _ "primary" []); auto. rewrite E. reflexivity.
Qed.
Print Assumptions C67_primary.

(** With more than one type, the hits of the first are all there is. *)
Theorem C67_first_type_only (c : RCtx) ds n t ts : Forall sound_doc ds ->
  In t ["maus_json_virtual_hit"; "maus_json_primary"]%string ->
  (forall t', In t' ts -> In t' default_types) ->
  read_maus_json_file true c (map doc_of ds) n (t :: ts) =
  read_maus_json_file true c (map doc_of ds) n [t].
Proof.
  intros F T TS.
  assert (K : forall t', In t' ts -> json_format t' <> None).
  { intros t' I. apply TS in I. simpl in I. destruct I as [<- | [<- | [<- | []]]]; discriminate. }
  destruct T as [<- | [<- | []]].
  - destruct (file_virtual c ds F) as [C E].
    rewrite !(read_clean true c _ n "maus_json_virtual_hit" "virtual_hit"); auto.
  - destruct (file_primary c ds F) as [C E].
    rewrite !(read_clean true c _ n "maus_json_primary" "primary"); auto.
Qed.
Print Assumptions C67_first_type_only.

Definition electron (event particle : Z) : RHit :=
  @mkHit RNum (fun v => match v with
                        | Vmass => 0.510998910 | Vpz => 4 / 3 * 0.510998910
                        | Venergy => 5 / 3 * 0.510998910 | Vcharge => -1 | _ => 0 end)%R
         (fun i => match i with Ievent => event | Iparticle => particle | Ipid => 11%Z | _ => 0%Z end).

Lemma electron_physical e p : physical (electron e p).
Proof.
  unfold physical, on_shell, momentum_squared, mass_for. cbn.
  split; [reflexivity|]. split; [|split; lra].
  match goal with |- @eq _ ?a ?b => change (@eq R a b) end. field.
Qed.
Lemma electron_ints : ints32 (electron 0 1).
Proof. intros i. destruct i; cbn; lia. Qed.

Definition one_spill : list Doc := [Spill 3 [mkEvent [electron 0 1] (electron 0 1)]].
Lemma one_spill_sound : Forall sound_doc one_spill.
Proof.
  constructor; [|constructor]. cbn. unfold small. cbn. split; [lia|]. split; [lia|].
  constructor; [|constructor]. split; [constructor; [|constructor]; apply electron_ints|].
  split; [apply electron_ints|apply electron_physical].
Qed.

(** The types asked for are not all read: the default arguments never give a primary. *)
Theorem C67_all_types_refuted (c : RCtx) :
  ~ (forall ds, Forall sound_doc ds ->
     exists hs, read_maus_json_file true c (map doc_of ds) (-1) default_types = inr hs /\
       forall h, In h (primaries ds) -> In h hs).
Proof.
  intros H. destruct (H one_spill one_spill_sound) as (hs & R & I).
  change default_types with ("maus_json_virtual_hit"%string :: ["maus_json_primary"; "maus_json_special_virtual_hit"]%string) in R.
  rewrite C67_first_type_only in R.
  - rewrite C67_virtual in R by apply one_spill_sound.
    assert (E : hs = virtuals one_spill) by (rewrite at_most_all in R by lia; congruence). subst hs.
    specialize (I (restored_primary 3 0 (electron 0 1))).
    destruct I as [E|[]]; [simpl; auto|].
    pose proof (f_equal (fun h => h_int h Iparticle) E) as P. cbn in P. discriminate P.
  - apply one_spill_sound.
  - simpl. auto.
  - intros t. simpl. tauto.
Qed.
Print Assumptions C67_all_types_refuted.

(** Several files: the limit applies to each of them. *)
Theorem C67_files (c : RCtx) test n files : files <> [] -> Forall (Forall sound_doc) files ->
  new_from_maus_json true c test n "maus_json_virtual_hit" (map (map doc_of) files) =
  inr (filter test (flat_map (fun ds => at_most n (virtuals ds)) files)).
Proof.
  intros NE F. unfold new_from_maus_json.
  assert (E : read_json_files true c n "maus_json_virtual_hit" (map (map doc_of) files) =
              inr (flat_map (fun ds => at_most n (virtuals ds)) files)).
  { clear NE. induction F as [|ds files D F IH]; auto. cbn [map read_json_files flat_map].
    rewrite C67_virtual, IH by auto. reflexivity. }
  rewrite E. destruct files; [congruence|]. reflexivity.
Qed.
Print Assumptions C67_files.

Theorem C67_limit_refuted (c : RCtx) :
  ~ (forall n files hs, (0 <= n)%Z -> Forall (Forall sound_doc) files ->
     new_from_maus_json true c (fun _ => true) n "maus_json_virtual_hit" (map (map doc_of) files) = inr hs ->
     (Z.of_nat (List.length hs) <= n)%Z).
Proof.
  intros H. specialize (H 1%Z [one_spill; one_spill]).
  rewrite C67_files in H; [|discriminate|].
  - specialize (H _ ltac:(lia) ltac:(constructor; [apply one_spill_sound|constructor; [apply one_spill_sound|constructor]]) eq_refl).
    assert (X : (Z.of_nat 2 <= 1)%Z) by exact H. lia.
  - constructor; [apply one_spill_sound|constructor; [apply one_spill_sound|constructor]].
Qed.
Print Assumptions C67_limit_refuted.

(** A primary whose energy is below its mass ends the reading: nothing after it is read and
    no exception is raised. *)
Theorem C67_stops_silently (c : RCtx) ds i h rest n : Forall sound_doc ds -> ints32 h ->
  (h_dbl h Venergy * h_dbl h Venergy < mass_for (h_int h Ipid) * mass_for (h_int h Ipid))%R ->
  read_maus_json_file true c
    (map doc_of ds ++ spill_doc [JDict [("primary"%string, primary_object h)]] i :: rest) n
    ["maus_json_primary"%string] = inr (at_most n (primaries ds)).
Proof.
  intros F I L. destruct (file_primary c ds F) as [C E].
  rewrite (read_bad true c (map doc_of ds) _ rest n "maus_json_primary" "primary" []); auto.
  - rewrite E. reflexivity.
  - apply primary_below; auto.
Qed.
Print Assumptions C67_stops_silently.

(** ---- C68: primaries from ROOT files ---------------------------------------------------------- *)

(** All but the charge is as in the json reader; the charge is 0. *)
Theorem C68_root_primary (c : RCtx) h spill ev : small spill -> small ev -> ints32 h -> physical h ->
  exists h', root_primary c (Z.of_nat spill) (Z.of_nat ev) (root_of h) = inr h' /\
    (forall v, v <> Vcharge -> h_dbl h' v = h_dbl (restored_primary spill ev h) v) /\
    (forall i, h_int h' i = h_int (restored_primary spill ev h) i) /\
    h_dbl h' Vcharge = 0%R.
Proof.
  intros A B C D. eexists. split; [apply root_primary_spec; auto|].
  split; [|split; auto]. intros v N. unfold hit_set_dbl. cbn [h_dbl].
  destruct (dblvar_eq_dec Vcharge v); [congruence|]. reflexivity.
Qed.
Print Assumptions C68_root_primary.

Theorem C68_charge_refuted (c : RCtx) :
  ~ (forall h spill ev h', small spill -> small ev -> ints32 h -> physical h ->
     root_primary c (Z.of_nat spill) (Z.of_nat ev) (root_of h) = inr h' ->
     h_dbl h' Vcharge = charge_for (h_int h Ipid)).
Proof.
  intros H. specialize (H (electron 0 1) 0%nat 0%nat).
  destruct (C68_root_primary c (electron 0 1) 0 0) as (h' & R & _ & _ & Q).
  - unfold small; lia.
  - unfold small; lia.
  - apply electron_ints.
  - apply electron_physical.
  - specialize (H h' ltac:(unfold small; lia) ltac:(unfold small; lia) electron_ints (electron_physical 0 1) R).
    rewrite Q in H. unfold charge_for in H. cbn in H. change (0%R = (-1)%R) in H. lra.
Qed.
Print Assumptions C68_charge_refuted.

(** ---- C54: tracker points ---------------------------------------------------------------------- *)

(** The hits of the tracks that pass the cut, before Python 3.7. *)
Theorem C54_hits (c : RCtx) cut spill ts : int32 spill -> small (List.length ts) ->
  Forall (fun t => passes cut t = true -> Forall accepted_point (snd t)) ts ->
  read_scifi false c cut spill ts =
  inr (flat_map (fun e => if passes cut (snd e) then map (tracker_hit spill (fst e)) (snd (snd e)) else [])
         (number 0 ts)).
Proof.
  intros A B F. unfold read_scifi. change 0%Z with (Z.of_nat 0).
  rewrite (sf_tracks_spec c cut spill ts A F 0); auto.
Qed.
Print Assumptions C54_hits.

(** Distinct places have distinct stations as long as numbers are digits; the place can be
    recovered from the station. *)
Theorem C54_unique spill track spill' track' tp tp' : digits tp -> digits tp' ->
  h_int (tracker_hit spill track tp) Istation = h_int (tracker_hit spill' track' tp') Istation ->
  place tp = place tp'.
Proof.
  unfold digits, digit, tracker_hit, place.
  destruct tp as [t s p [[x y] z] [[px py] pz]], tp' as [t' s' p' [[x' y'] z'] [[px' py'] pz']].
  cbn -[Z.mul Z.add]. intros A B E.
  assert (t = t' /\ s = s' /\ p = p') as (-> & -> & ->) by lia. reflexivity.
Qed.
Print Assumptions C54_unique.

(** Not for all that is accepted. *)
Theorem C54_unique_refuted :
  ~ (forall spill track tp tp', accepted_point tp -> accepted_point tp' ->
     h_int (tracker_hit spill track tp) Istation = h_int (tracker_hit spill track tp') Istation ->
     place tp = place tp').
Proof.
  intros H. specialize (H 0%Z 0%nat (mkTP 0 10 2 (0, 0, 0) (0, 0, 0))%R (mkTP 1 0 2 (0, 0, 0) (0, 0, 0))%R).
  cbn in H. unfold accepted_point in H. cbn in H.
  specialize (H ltac:(lia) ltac:(lia) eq_refl). discriminate H.
Qed.
Print Assumptions C54_unique_refuted.

(** A point out of range: ValueError, whatever else is in the event. *)
Theorem C54_out_of_range pep479 (c : RCtx) cut spill ts1 pv tps1 tp tps2 ts2 :
  int32 spill -> small (List.length ts1) ->
  Forall (fun t => passes cut t = true -> Forall accepted_point (snd t)) ts1 ->
  passes cut (pv, tps1 ++ tp :: tps2) = true -> Forall accepted_point tps1 -> ~ accepted_point tp ->
  read_scifi pep479 c cut spill (ts1 ++ (pv, tps1 ++ tp :: tps2) :: ts2) = inl MValue.
Proof.
  intros A B F P F1 N. unfold read_scifi.
  assert (E : forall n, small (n + List.length ts1) ->
    sf_tracks c cut spill (Z.of_nat n) (ts1 ++ (pv, tps1 ++ tp :: tps2) :: ts2) = inl MValue).
  { clear B. induction F as [|[pv' tps'] ts1 Ft F IH]; intros n L; cbn [app sf_tracks List.length] in *.
    - replace (rltb 0 cut && rltb pv cut)%bool with false.
      2: { unfold passes in P. cbn [fst] in P. unfold rltb.
           destruct (Rlt_dec 0 cut); auto. destruct (Rlt_dec pv cut); first [discriminate | reflexivity]. }
      replace (sf_points c spill (Z.of_nat n) (tps1 ++ tp :: tps2)) with (@inl MErr (list RHit) MValue); auto.
      symmetry. clear P. induction F1 as [|tp' tps1 A1 F1 IH1]; cbn [app sf_points].
      + unfold sf_hit, sf_station.
        replace (_ || _)%bool with true; auto. symmetry. unfold accepted_point in N.
        repeat rewrite orb_true_iff. repeat rewrite Z.ltb_lt. lia.
      + rewrite sf_hit_spec by (auto; unfold small in *; lia). rewrite IH1. reflexivity.
    - replace (Z.of_nat n + 1)%Z with (Z.of_nat (S n)) by lia.
      rewrite IH by (unfold small in *; lia).
      cbn [snd] in Ft. unfold passes in Ft. cbn [fst] in Ft. unfold rltb.
      destruct (Rlt_dec 0 cut); cbn [andb].
      + destruct (Rlt_dec pv' cut); auto. rewrite sf_points_spec; auto. unfold small in *; lia.
      + rewrite sf_points_spec; auto. unfold small in *; lia. }
  change 0%Z with (Z.of_nat 0). rewrite (E 0%nat); auto.
Qed.
Print Assumptions C54_out_of_range.

(** From Python 3.7 on no event can be read. *)
Theorem C54_python37_refuted (c : RCtx) cut spill ts :
  exists e, read_scifi true c cut spill ts = inl e.
Proof. unfold read_scifi. destruct (sf_tracks c cut spill 0 ts); eauto. Qed.
Print Assumptions C54_python37_refuted.

(** ---- examples ---------------------------------------------------------------------------------- *)

Example C40_ex_split :
  split_list_by_equality (fun _ a => (a mod 3)%Z) [4; 5; 7; 9; 2; 1]%Z "" = [[4; 7; 1]; [5; 2]; [9]]%Z.
Proof. reflexivity. Qed.
Example C40_ex_tree :
  maus_tree (fun k a => if String.eqb k "q" then (a / 10)%Z else (a mod 10)%Z) (fun a => int a)
    [PSplit "q"; PKey "u"; PSplit "r"; PKey "v"]%string [11; 21; 12]%Z =
  inr (JList [JDict [("u", JList [JDict [("v", int 11)]; JDict [("v", int 12)]])];
              JDict [("u", JList [JDict [("v", int 21)]])]]%string).
Proof. reflexivity. Qed.
Example C40_ex_io :
  maus_tree (fun k a => (a mod 10)%Z) (fun a => int a) [PSplit "r"; PKey "v"]%string [11; 21; 12]%Z = inl MIO.
Proof. reflexivity. Qed.
Example C40_ex_clash :
  clash (fun _ a => (a mod 10)%Z) ["r"%string] [11; 21; 12]%Z.
Proof. left. exists 21%Z. split; [simpl; auto|]. reflexivity. Qed.

(** Two events, three particles; event numbers 7 and 5 become spills 0 and 1. *)
Example C66_ex :
  map (fun h => (h_int h Ispill, h_int h Ievent, h_int h Iparticle))
    (restored_all [electron 7 1; electron 5 4; electron 7 2; electron 7 1]) =
  [(0, 0, 1); (0, 0, 1); (0, 1, 2); (1, 0, 4)]%Z.
Proof. reflexivity. Qed.
Example C66_ex_hyp : Forall ints32 [electron 0 1; electron 0 1] /\ Forall physical [electron 0 1] /\
  small (List.length [electron 0 1]) /\ NoDup (map (fun h => (event_of h, particle_of h)) [electron 0 1; electron 0 2]).
Proof.
  split; [constructor; [apply electron_ints|constructor; [apply electron_ints|constructor]]|].
  split; [constructor; [apply electron_physical|constructor]|].
  split; [unfold small; cbn; lia|].
  constructor; [|constructor; [|constructor]]; cbn; intuition discriminate.
Qed.
Example C67_ex_sound : Forall sound_doc (one_spill ++ [Other (JDict [("maus_event_type"%string, JStr "JobHeader"%string)])]).
Proof.
  apply Forall_app. split; [apply one_spill_sound|]. constructor; [|constructor].
  cbn. eexists. split; [reflexivity|]. cbn. intros H. discriminate H.
Qed.
Example C67_ex_below :
  (h_dbl (@mkHit RNum (fun _ => 0) (fun i => match i with Ipid => 11%Z | _ => 0%Z end)) Venergy *
   h_dbl (@mkHit RNum (fun _ => 0) (fun i => match i with Ipid => 11%Z | _ => 0%Z end)) Venergy <
   mass_for 11 * mass_for 11)%R.
Proof. unfold mass_for. cbn. lra. Qed.
Example C54_ex :
  h_int (tracker_hit 2 0 (mkTP 1 5 2 (1, 2, 3) (4, 5, 6))%R) Istation = 90152%Z /\
  digits (mkTP 1 5 2 (1, 2, 3) (4, 5, 6))%R /\ ~ accepted_point (mkTP 1 5 11 (1, 2, 3) (4, 5, 6))%R.
Proof. unfold digits, digit, accepted_point. cbn. lia. Qed.
