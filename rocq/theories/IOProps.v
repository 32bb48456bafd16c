(** Particle tables, text formats, reading and writing: C26 to C29. *)
From Coq Require Import Reals ZArith List Bool String Ascii Lra Lia Permutation Sorted.
From Verif Require Import Num WeightModel HitcoreModel HitcoreSpec HitcoreProofs PyLibModel
  PyLibProofs HitPyModel HitPySpec HitPyProofs TableModel BunchModel BunchNumModel StatProofs
  IOModel IOSpec IOProofs IOFileProofs.
Import ListNotations.
Open Scope string_scope.
Open Scope list_scope.
Open Scope R_scope.

(** ---- C26: particle tables ---- *)

(** The two icool tables are inverse to each other, and antiparticles have opposite numbers
    in both numberings. *)
Theorem C26_icool_bijection :
  (forall k v, zassoc icool_pid_to_pdg k = Some v <-> zassoc pdg_pid_to_icool v = Some k) /\
  (forall k v, zassoc icool_pid_to_pdg k = Some v ->
               zassoc icool_pid_to_pdg (- k) = Some (- v)%Z).
Proof.
  assert (A : forall k v, zassoc icool_pid_to_pdg k = Some v -> zassoc pdg_pid_to_icool v = Some k).
  { intros k v E.
    apply oz_eqb_eq, (zassoc_all icool_pid_to_pdg
      (fun kv => oz_eqb (zassoc pdg_pid_to_icool (snd kv)) (Some (fst kv))) eq_refl _ _ E). }
  assert (B : forall k v, zassoc pdg_pid_to_icool v = Some k -> zassoc icool_pid_to_pdg k = Some v).
  { intros k v E.
    apply oz_eqb_eq, (zassoc_all pdg_pid_to_icool
      (fun kv => oz_eqb (zassoc icool_pid_to_pdg (snd kv)) (Some (fst kv))) eq_refl _ _ E). }
  split; [split; auto|]. intros k v E.
  apply oz_eqb_eq, (zassoc_all icool_pid_to_pdg
    (fun kv => oz_eqb (zassoc icool_pid_to_pdg (- fst kv)) (Some (- snd kv)%Z)) eq_refl _ _ E).
Qed.
Print Assumptions C26_icool_bijection.
Example C26_icool_example : zassoc pdg_pid_to_icool (-13) = Some 2%Z /\ zassoc pdg_pid_to_icool 13 = Some (-2)%Z.
Proof. split; reflexivity. Qed.

(** Every PDG number that can be written to a mars file is restored when it is read, and
    every PDG number that can be read from a mars file can be written. *)
Theorem C26_mars_restores_pdg :
  (forall v k, zassoc pdg_pid_to_mars v = Some k -> zassoc mars_pid_to_pdg k = Some v) /\
  (forall k v, zassoc mars_pid_to_pdg k = Some v -> exists k', zassoc pdg_pid_to_mars v = Some k').
Proof.
  split.
  - intros v k E.
    apply oz_eqb_eq, (zassoc_all pdg_pid_to_mars
      (fun kv => oz_eqb (zassoc mars_pid_to_pdg (snd kv)) (Some (fst kv))) eq_refl _ _ E).
  - intros k v E.
    pose proof (zassoc_all mars_pid_to_pdg
      (fun kv => match zassoc pdg_pid_to_mars (snd kv) with Some _ => true | None => false end) eq_refl _ _ E) as H.
    cbn beta in H. cbn [snd] in H. destruct (zassoc pdg_pid_to_mars v); [eauto|discriminate].
Qed.
Print Assumptions C26_mars_restores_pdg.
Example C26_mars_example : zassoc pdg_pid_to_mars (-13) = Some 7%Z.
Proof. reflexivity. Qed.

(** The converse fails: a mars file that is read and written again can change particle
    numbers (a sigma+, 28, becomes an omega-bar, 40). *)
Theorem C26_mars_number_restored_refuted :
  exists k v k', zassoc mars_pid_to_pdg k = Some v /\ zassoc pdg_pid_to_mars v = Some k' /\ k' <> k.
Proof. exists 28%Z, 0%Z, 40%Z. repeat split; try reflexivity; discriminate. Qed.
Print Assumptions C26_mars_number_restored_refuted.

(** Every particle of the icool and mars tables has a mass, which is not negative; all but
    -311 have a charge. *)
Theorem C26_mass_and_charge_found : forall k v,
  zassoc icool_pid_to_pdg k = Some v \/ zassoc mars_pid_to_pdg k = Some v ->
  (exists m, zassoc pdg_pid_to_mass (Z.abs v) = Some m /\ 0 <= m) /\
  (v <> (-311)%Z -> exists q, zassoc pdg_pid_to_charge v = Some q).
Proof.
  assert (M : forall a, existsb (Z.eqb a) (map fst pdg_pid_to_mass) = true ->
                exists m, zassoc pdg_pid_to_mass a = Some m /\ 0 <= m).
  { intros a H. apply existsb_exists in H. destruct H as (x & Hx & E). apply Z.eqb_eq in E. subst x.
    simpl in Hx. decompose [or] Hx; try contradiction; subst; eexists; (split; [reflexivity|lra]). }
  assert (P : forall t : list (Z * Z),
    forallb (fun kv => (existsb (Z.eqb (Z.abs (snd kv))) (map fst pdg_pid_to_mass) &&
       (Z.eqb (snd kv) (-311) || match zassoc pdg_pid_to_charge (snd kv) with Some _ => true | None => false end))%bool) t = true ->
    forall k v, zassoc t k = Some v ->
    (exists m, zassoc pdg_pid_to_mass (Z.abs v) = Some m /\ 0 <= m) /\
    (v <> (-311)%Z -> exists q, zassoc pdg_pid_to_charge v = Some q)).
  { intros t H k v E. pose proof (zassoc_all t _ H k v E) as H1. cbn beta in H1. cbn [snd] in H1.
    apply andb_prop in H1. destruct H1 as [H1 H2]. split; [apply M; auto|].
    intros N. apply orb_prop in H2. destruct H2 as [H2|H2]; [apply Z.eqb_eq in H2; contradiction|].
    destruct (zassoc pdg_pid_to_charge v); [eauto|discriminate]. }
  intros k v [E|E]; eapply P; eauto; vm_compute; reflexivity.
Qed.
Print Assumptions C26_mass_and_charge_found.
Example C26_mass_example : zassoc mars_pid_to_pdg 25 = Some (-311)%Z.
Proof. reflexivity. Qed.

(** The exception: the anti-K0 can be read from mars files but has no charge. *)
Theorem C26_charge_complete_refuted :
  exists k v, zassoc mars_pid_to_pdg k = Some v /\ zassoc pdg_pid_to_charge v = None.
Proof. exists 25%Z, (-311)%Z. split; reflexivity. Qed.
Print Assumptions C26_charge_complete_refuted.

(** Antiparticles have opposite charge, whenever both are in the table. *)
Theorem C26_charge_conjugation : forall v q q',
  zassoc pdg_pid_to_charge v = Some q -> zassoc pdg_pid_to_charge (- v) = Some q' -> q' = (- q)%Z.
Proof.
  intros v q q' E E'.
  pose proof (zassoc_all pdg_pid_to_charge
    (fun kv => match zassoc pdg_pid_to_charge (- fst kv) with
               | Some x => Z.eqb x (- snd kv) | None => true end) eq_refl _ _ E) as H.
  cbn beta in H. cbn [fst snd] in H. rewrite E' in H. apply Z.eqb_eq in H. exact H.
Qed.
Print Assumptions C26_charge_conjugation.
Example C26_charge_example : zassoc pdg_pid_to_charge (-13) = Some 1%Z /\ zassoc pdg_pid_to_charge 13 = Some (-1)%Z.
Proof. split; reflexivity. Qed.

(** The charge of a nucleus is not the one its PDG number stands for: all are 0. *)
Theorem C26_nucleus_charge_refuted :
  exists v q, zassoc pdg_pid_to_charge v = Some q /\ (1000000000 < v)%Z /\ q <> nucleus_charge v.
Proof. exists 1000010020%Z, 0%Z. split; [reflexivity|]. split; [lia|]. vm_compute. discriminate. Qed.
Print Assumptions C26_nucleus_charge_refuted.

(** ---- C27: one hit in a text format ---- *)

(** A program used in the examples: a mu+ at station 2 off axis, a gamma and a mu- at
    station 1. *)
Definition ex_beam : list (WOp RNum) :=
  [ WNew; WSet 0 "pid" (PInt (-13)); WSet 0 "station" (PInt 2);
    WSet 0 "x" (PFloat (3 : RNum)); WSet 0 "pz" (PFloat (200 : RNum));
    WNew; WSet 1 "pid" (PInt 22); WSet 1 "station" (PInt 1);
    WNew; WSet 2 "pid" (PInt 13); WSet 2 "station" (PInt 1);
    WSet 2 "event_number" (PInt 7) ].

Example ex_beam_ok :
  has_pid (wrun ex_beam) 0 (-13) /\ has_pid (wrun ex_beam) 1 22 /\ has_pid (wrun ex_beam) 2 13 /\
  writable "icool_for009" (-13) /\ ~ writable "icool_for009" 22 /\ writable "mars_1" 22.
Proof.
  repeat split; try reflexivity.
  - exists 2%Z. vm_compute. tauto.
  - intros [n H]. unfold file_id in H. cbn [String.eqb Ascii.eqb Bool.eqb orb] in H.
    simpl in H. decompose [or] H; try contradiction; discriminate.
  - exists 9%Z. vm_compute. tauto.
Qed.

(** Writing a hit whose particle has a number in the format gives one line whose columns
    hold the variables of the hit in the units of the format, and leaves every hit of the
    program as it was. *)
Theorem C27_line_written : forall (p : list (WOp RNum)) fmt l s pid,
  In fmt text_formats -> has_state (wrun p) l s -> has_pid (wrun p) l pid -> writable fmt pid ->
  exists ts w', write_at "mm" fmt (wrun p) l = (w', inr ts) /\
    Forall2 (column_holds fmt s) (columns fmt) ts /\
    nothing_changed (wrun p) w'.
Proof.
  intros p fmt l [h c] pid F [E C] P I. cbn [fst snd] in *.
  pose proof (pid_get _ _ _ E) as P'. unfold has_pid in *. rewrite P in P'. injection P' as ->.
  destruct (write_then_read fmt h c c F (fun i => reach_ints p l h i E) I)
    as (ts & h2 & h' & E1 & E2 & E3 & _).
  exists ts, (fst (write_at "mm" fmt (wrun p) l)).
  assert (H : is_hit (wrun p) l) by (unfold is_hit; congruence).
  destruct (write_at_spec fmt (wrun p) l F (reach_ints p) H) as [Q _].
  apply weq_get in Q. split; [|split; auto].
  unfold write_at. rewrite E, C, E1. reflexivity.
Qed.
Print Assumptions C27_line_written.

(** A hit whose particle has no number in the format gives no line but a KeyError, and
    every hit is left as it was. *)
Theorem C27_unknown_particle : forall (p : list (WOp RNum)) fmt l pid,
  In fmt text_formats -> has_pid (wrun p) l pid -> ~ writable fmt pid ->
  exists w', write_at "mm" fmt (wrun p) l = (w', inl IKeyError) /\ nothing_changed (wrun p) w'.
Proof.
  intros p fmt l pid F P I.
  assert (E : exists h, w_hits (wrun p) l = Some h /\ h_int h Ipid = pid).
  { unfold has_pid, hit_get in P. destruct (w_hits (wrun p) l) as [h|]; [|discriminate].
    exists h. split; auto. cbn in P. congruence. }
  destruct E as (h & E & <-).
  assert (H : is_hit (wrun p) l) by (unfold is_hit; congruence).
  destruct (write_at_spec fmt (wrun p) l F (reach_ints p) H) as [Q _]. apply weq_get in Q.
  exists (fst (write_at "mm" fmt (wrun p) l)). split; auto.
  unfold write_at. rewrite E. rewrite (write_hit_none fmt h _ F I). reflexivity.
Qed.
Print Assumptions C27_unknown_particle.
Example C27_unknown_case : exists w',
  write_at "mm" "icool_for009" (wrun ex_beam) 1 = (w', inl IKeyError) /\
  nothing_changed (wrun ex_beam) w'.
Proof.
  apply (C27_unknown_particle ex_beam "icool_for009" 1 22); [left; reflexivity|reflexivity|].
  apply ex_beam_ok.
Qed.

(** Reading the line that was written gives back all variables that the format has; mass,
    charge and energy are those of the particle. *)
Theorem C27_write_then_read : forall (p : list (WOp RNum)) fmt l s pid (c : RCtx) ts w',
  In fmt text_formats -> has_state (wrun p) l s -> has_pid (wrun p) l pid ->
  write_at "mm" fmt (wrun p) l = (w', inr ts) ->
  exists h', read_hit fmt c ts = RHitOk h' /\ reads_back fmt s (h', c).
Proof.
  intros p fmt l [h c0] pid c ts w' F [E C] P W. cbn [fst snd] in *.
  pose proof (pid_get _ _ _ E) as P'. unfold has_pid in *. rewrite P in P'. injection P' as ->.
  destruct (writable_dec fmt (h_int h Ipid) F) as [I|I].
  - destruct (write_then_read fmt h c0 c F (fun i => reach_ints p l h i E) I)
      as (ts' & h2 & h' & E1 & E2 & E3 & E4 & E5).
    unfold write_at in W. rewrite E, C, E1 in W. injection W as _ <-.
    exists h'. split; auto. apply restored_back; auto.
  - unfold write_at in W. rewrite E in W. rewrite (write_hit_none fmt h _ F I) in W. discriminate.
Qed.
Print Assumptions C27_write_then_read.

(** The mu+ of the example through a for009 file: everything the format has comes back. *)
Example C27_case : exists ts w' h',
  write_at "mm" "icool_for009" (wrun ex_beam) 0 = (w', inr ts) /\
  read_hit "icool_for009" (cur_ctx (wrun ex_beam)) ts = RHitOk h' /\
  py_get (h', cur_ctx (wrun ex_beam)) "x" = inr (@PFloat RNum 3) /\
  py_get (h', cur_ctx (wrun ex_beam)) "pid" = inr (PInt (-13)) /\
  py_get (h', cur_ctx (wrun ex_beam)) "charge" = inr (@PFloat RNum 1).
Proof.
  destruct ex_beam_ok as (P & _ & _ & I & _).
  assert (S : exists s, has_state (wrun ex_beam) 0 s /\ py_get s "x" = inr (@PFloat RNum 3) /\
                        py_get s "pid" = inr (PInt (-13))).
  { assert (H : exists h, w_hits (wrun ex_beam) 0 = Some h /\ h_dbl h Vx = 3 /\ h_int h Ipid = (-13)%Z).
    { eexists. split; [reflexivity|]. split; reflexivity. }
    destruct H as (h & E & X & Q). exists (h, cur_ctx (wrun ex_beam)). split; [split; auto|].
    change "x" with (fname Vx). rewrite get_fname. cbn [fst]. rewrite X. split; [reflexivity|].
    change (py_get (h, cur_ctx (wrun ex_beam)) "pid") with (@inr PyErr RVal (PInt (h_int h Ipid))).
    rewrite Q. reflexivity. }
  destruct S as (s & S & X & Q).
  destruct (C27_line_written ex_beam "icool_for009" 0 s (-13) (or_introl eq_refl) S P I)
    as (ts & w' & E1 & _ & _).
  destruct (C27_write_then_read ex_beam "icool_for009" 0 s (-13) (cur_ctx (wrun ex_beam)) ts w'
    (or_introl eq_refl) S P E1) as (h' & E2 & (q & Q' & _ & Ch & _ & R)).
  rewrite Q in Q'. injection Q' as <-.
  exists ts, w', h'. split; auto. split; auto.
  rewrite (R "x"); try discriminate; [|left; simpl; tauto].
  rewrite (R "pid"); try discriminate; [|right; simpl; tauto].
  split; [exact X|]. split; [exact Q|]. exact Ch.
Qed.

(** A hit that is on its mass shell, and has the mass and charge of its particle, is
    restored in all variables that the format has; in addition to these it has the mass,
    the charge and the energy. *)
Theorem C27_on_shell_restored : forall fmt s s' pid e px py pz,
  reads_back fmt s s' -> In fmt text_formats ->
  py_get s "pid" = inr (PInt pid) ->
  py_get s "mass" = inr (@PFloat RNum (mass_for pid)) ->
  py_get s "charge" = inr (@PFloat RNum (charge_for pid)) ->
  py_get s "energy" = inr (@PFloat RNum e) -> py_get s "px" = inr (@PFloat RNum px) ->
  py_get s "py" = inr (@PFloat RNum py) -> py_get s "pz" = inr (@PFloat RNum pz) ->
  0 <= e -> e * e = mass_for pid * mass_for pid + px * px + py * py + pz * pz ->
  forall k, stored k ->
    In k ["mass"; "charge"; "energy"] \/ carried fmt k = true -> py_get s' k = py_get s k.
Proof.
  intros fmt s s' pid e px py pz (pid' & P & M & Q & (e' & px' & py' & pz' & E & PX & PY & PZ & E0 & E2) & R)
    F P' M' Q' Ee X Y Z H0 H2 k K C.
  rewrite P in P'. injection P' as ->.
  destruct (string_dec k "mass") as [->|N1]; [congruence|].
  destruct (string_dec k "charge") as [->|N2]; [congruence|].
  assert (Cp : carried fmt "px" = true /\ carried fmt "py" = true /\ carried fmt "pz" = true).
  { each_format F; repeat split. }
  destruct Cp as (C1 & C2 & C3).
  assert (G : forall k0, In k0 stored_floats -> k0 <> "mass" -> k0 <> "charge" -> k0 <> "energy" ->
     carried fmt k0 = true -> py_get s' k0 = py_get s k0).
  { intros k0 S0 A B D Ck. rewrite R; auto; [|left; auto]. rewrite Ck. reflexivity. }
  rewrite (G "px") in PX by (try discriminate; auto; simpl; tauto).
  rewrite (G "py") in PY by (try discriminate; auto; simpl; tauto).
  rewrite (G "pz") in PZ by (try discriminate; auto; simpl; tauto).
  rewrite X in PX. rewrite Y in PY. rewrite Z in PZ.
  assert (px' = px) by (inversion PX; reflexivity). assert (py' = py) by (inversion PY; reflexivity).
  assert (pz' = pz) by (inversion PZ; reflexivity). subst.
  destruct (string_dec k "energy") as [->|N3].
  - rewrite E, Ee. do 2 f_equal. apply Rsqr_inj; auto. unfold Rsqr. rewrite E2, H2. reflexivity.
  - destruct C as [C|C].
    + destruct C as [<-|[<-|[<-|[]]]]; contradiction.
    + rewrite R by auto. rewrite C. reflexivity.
Qed.
Print Assumptions C27_on_shell_restored.
Example C27_on_shell_case : exists s : PSt,
  py_get s "pid" = inr (PInt (-13)) /\
  py_get s "mass" = inr (@PFloat RNum (mass_for (-13))) /\
  py_get s "charge" = inr (@PFloat RNum (charge_for (-13))) /\
  py_get s "energy" = inr (@PFloat RNum (mass_for (-13))) /\ py_get s "pz" = inr (@PFloat RNum 0) /\
  carried "icool_for003" "x" = true /\ carried "icool_for003" "station" = false.
Proof.
  exists (sd (sd (sd (set_pid hit_new (-13)) Vmass (mass_for (-13))) Vcharge (charge_for (-13)))
            Venergy (mass_for (-13)), cur_ctx (wrun ex_beam)).
  repeat split; reflexivity.
Qed.

(** After set_g4bl_unit('cm') the statement is false: the file is written in cm and read
    as mm. *)
Theorem C27_g4bl_unit_refuted :
  exists p l s ts w' (c : RCtx) h', has_state (wrun p) l s /\
    write_at "cm" "g4beamline_bl_track_file" (wrun p) l = (w', inr ts) /\
    read_hit "g4beamline_bl_track_file" c ts = RHitOk h' /\
    py_get s "x" = inr (@PFloat RNum 3) /\ py_get (h', c) "x" = inr (@PFloat RNum (3 / 10)).
Proof.
  exists ex_beam, 0%nat.
  assert (H : exists h, w_hits (wrun ex_beam) 0 = Some h /\ h_dbl h Vx = 3 /\
     (forall i, int32 (h_int h i))).
  { eexists. split; [reflexivity|]. split; [reflexivity|].
    intros i. destruct i; split; cbn; lia. }
  destruct H as (h & E & X & I). set (c := cur_ctx (wrun ex_beam)) in *.
  exists (h, c). do 2 eexists. exists c. eexists. split; [split; auto|].
  split. { unfold write_at. rewrite E. fold c. cbn -[Rdiv c_light wrun]. reflexivity. }
  split. { rewrite !trunc_int. unfold read_hit. cbn -[Rdiv Rmult c_light py_set complete]. psets.
           cbn -[Rdiv Rmult c_light complete]. reflexivity. }
  split. { change "x" with (fname Vx). rewrite get_fname. cbn [fst]. rewrite X. reflexivity. }
  change "x" with (fname Vx). rewrite get_fname. cbn [fst].
  match goal with |- context [complete ?a _ ?b ?h] =>
    rewrite (proj1 (complete_spec a b h eq_refl eq_refl)) end. cbn -[Rdiv Rmult].
  cbn in X. toR. do 2 f_equal. rewrite X. field.
Qed.
Print Assumptions C27_g4bl_unit_refuted.

(** ---- C28: files of many hits ---- *)

(** The file has the hits in order of station, hits of the same station in the order of
    the list, one line for each hit whose particle the format knows; the header is what
    the reader skips if the comment has no newline; no hit changes. *)
Theorem C28_file_written : forall (p : list (WOp RNum)) fmt ls comment,
  In fmt text_formats -> (forall l, In l ls -> is_hit (wrun p) l) ->
  exists file w' sorted hdr out,
    write_list "mm" fmt (wrun p) ls comment = (w', inr file) /\
    nothing_changed (wrun p) w' /\
    file = map LText hdr ++ out /\ by_station (wrun p) ls sorted /\
    written fmt (wrun p) sorted out /\
    (has_newline (the_comment comment) = false -> data_lines fmt file = out).
Proof.
  intros p fmt ls comment F H.
  destruct (written_file fmt (wrun p) ls comment F (reach_ints p) H)
    as (hdr & sorted & w' & E & Q & B & HS & D).
  exists (map LText hdr ++ flat_map (lines_at fmt (wrun p)) sorted), w', sorted, hdr,
    (flat_map (lines_at fmt (wrun p)) sorted).
  split; auto. split; [apply weq_get; auto|]. split; auto. split; auto. split; auto.
  apply lines_written; auto. apply reach_ints.
Qed.
Print Assumptions C28_file_written.

(** The example: the hits of station 1 come first and the gamma is left out of an icool
    file. *)
Lemma icool_line (p : list (WOp RNum)) l pid n e : has_pid (wrun p) l pid ->
  file_id "icool_for009" pid n -> hit_get (wrun p) l "eventNumber" = Some (PInt e) ->
  exists t, lines_at "icool_for009" (wrun p) l = [LData t] /\
       nth_error t 0 = Some (TInt e) /\ nth_error t 2 = Some (TInt n).
Proof.
  intros P I Ev. set (w := wrun p) in *.
  destruct (w_hits w l) as [h|] eqn:Eh; [|unfold has_pid, hit_get in P; rewrite Eh in P; discriminate].
  destruct (C27_line_written p "icool_for009" l (h, cur_ctx w) pid (or_introl eq_refl)) as (ts & w1 & E1 & C & _).
  { split; auto. } { exact P. } { exists n. exact I. }
  exists ts. unfold lines_at. fold w in E1. rewrite E1. split; [reflexivity|].
  unfold columns in C. cbn [map app String.eqb Ascii.eqb Bool.eqb] in C.
  inversion C as [|? t0 ? r0 C0 C0']; subst. inversion C0' as [|? t1 ? r1 C1 C1']; subst.
  inversion C1' as [|? t2 ? r2 C2 C2']; subst. cbn [nth_error]. unfold column_holds in C0, C2.
  cbn [fst snd String.eqb Ascii.eqb Bool.eqb] in C0, C2.
  unfold has_pid, hit_get in *. rewrite Eh in *. split.
  - destruct C0 as [(z & Z1 & Z2)|(x & y & Z1 & _)]; cbn in Z1, Ev; congruence.
  - destruct C2 as (pid' & n' & Z1 & Z2 & ->). cbn in P, Z1.
    assert (pid' = pid) by congruence. subst pid'. do 2 f_equal.
    unfold file_id in *. cbn [String.eqb Ascii.eqb Bool.eqb orb] in *. simpl in I, Z2.
    decompose [or] I; try contradiction;
    match goal with Q : (_, _) = (_, _) |- _ => injection Q as <- <- end;
    clear -Z2; decompose [or] Z2; try contradiction; congruence.
Qed.
Lemma icool_three (p : list (WOp RNum)) : 
  (forall l, In l [0; 1; 2]%nat -> is_hit (wrun p) l) ->
  sort (fun a b => Z.ltb (station (wrun p) a) (station (wrun p) b)) [0; 1; 2]%nat = [1; 2; 0]%nat ->
  has_pid (wrun p) 0 (-13) -> has_pid (wrun p) 1 22 -> has_pid (wrun p) 2 13 ->
  hit_get (wrun p) 0 "eventNumber" = Some (PInt 0) ->
  hit_get (wrun p) 2 "eventNumber" = Some (PInt 7) ->
  exists file w' hdr t0 t1,
  write_list "mm" "icool_for009" (wrun p) [0; 1; 2]%nat None = (w', inr file) /\
  file = map LText hdr ++ [LData t0; LData t1] /\
  nth_error t0 0 = Some (TInt 7) /\ nth_error t0 2 = Some (TInt (-2)) /\
  nth_error t1 0 = Some (TInt 0) /\ nth_error t1 2 = Some (TInt 2).
Proof.
  intros H S P0 P1 P2 V0 V2.
  assert (F : In "icool_for009" text_formats) by (left; reflexivity).
  destruct (write_loop_spec "icool_for009" [1; 2; 0]%nat F (wrun p) (wrun p) None []
    (reach_ints p) (weq_refl _)) as (w' & E & _).
  { clear -H. intros l Hl. apply H. cbn [In app] in *. tauto. }
  assert (L1 : lines_at "icool_for009" (wrun p) 1 = []).
  { destruct (C27_unknown_particle p "icool_for009" 1 22 F P1) as (w1 & E1 & _).
    - apply ex_beam_ok.
    - unfold lines_at. rewrite E1. reflexivity. }
  destruct (icool_line p 2%nat 13%Z (-2)%Z 7%Z P2 ltac:(vm_compute; tauto) V2) as (t0 & A1 & A2 & A3).
  destruct (icool_line p 0%nat (-13)%Z 2%Z 0%Z P0 ltac:(vm_compute; tauto) V0) as (t1 & B1 & B2 & B3).
  assert (HD : exists hd, file_header "icool_for009" None = Some hd) by (eexists; reflexivity).
  destruct HD as [hd HD].
  exists (map LText (lines_of hd) ++ [LData t0; LData t1]), w', (lines_of hd), t0, t1.
  split; [|auto]. unfold write_list. rewrite HD, S, E. cbn [app flat_map]. rewrite L1, A1, B1. reflexivity.
Qed.
Example C28_case : exists file w' hdr t0 t1,
  write_list "mm" "icool_for009" (wrun ex_beam) [0; 1; 2]%nat None = (w', inr file) /\
  file = map LText hdr ++ [LData t0; LData t1] /\
  nth_error t0 0 = Some (TInt 7) /\ nth_error t0 2 = Some (TInt (-2)) /\
  nth_error t1 0 = Some (TInt 0) /\ nth_error t1 2 = Some (TInt 2).
Proof.
  apply icool_three; try (vm_compute; reflexivity).
  intros l [<-|[<-|[<-|[]]]]; (eapply (is_hit_of_get _ _ _ "spill"); vm_compute; reflexivity).
Qed.

(** A comment with a newline makes the file unreadable: the last line of the header is
    taken for data, and reading stops with a ValueError. *)
Theorem C28_comment_refuted : exists comment file w',
  has_newline comment = true /\
  write_list "mm" "icool_for009" (wrun []) [] (Some comment) = (w', inr file) /\
  forall (c : RCtx) test, new_from_read_builtin "icool_for009" c test (-1) [file] = inl IValueError.
Proof.
  exists ("first line" ++ newline ++ "second line")%string. do 2 eexists.
  split; [reflexivity|]. split; [reflexivity|]. intros c test. reflexivity.
Qed.
Print Assumptions C28_comment_refuted.

(** An unknown format is an IOError and writes nothing. *)
Theorem C28_unknown_format : forall (p : list (WOp RNum)) fmt ls comment,
  ~ In fmt file_types -> write_list "mm" fmt (wrun p) ls comment = (wrun p, inl IIOError).
Proof.
  intros p fmt ls comment H. unfold write_list.
  destruct (is_in fmt file_types) eqn:E; [|reflexivity].
  unfold is_in in E. apply existsb_exists in E. destruct E as (x & Hx & E).
  apply String.eqb_eq in E. subst. contradiction.
Qed.
Print Assumptions C28_unknown_format.
Example C28_unknown_case : ~ In "root" file_types.
Proof. intros H. vm_compute in H. intuition discriminate. Qed.

(** ---- C29: reading files ---- *)

(** Reading gives the first n hits (all hits if n is negative) of the files, in order,
    that pass the test, as long as no line of the files fails. *)
Theorem C29_read : forall fmt (c : RCtx) test n files,
  In fmt text_formats -> files <> [] ->
  (forall f l, In f files -> In l (data_lines fmt f) -> ~ fails (read_hit fmt c (tokens l))) ->
  new_from_read_builtin fmt c test n files =
    inr (at_most n (hits_in (read_hit fmt c) test (flat_map (data_lines fmt) files))).
Proof.
  intros fmt c test n files F N H.
  destruct (format_facts fmt F) as (_ & _ & _ & _ & _ & F6 & _).
  unfold new_from_read_builtin. rewrite F6. cbn [negb].
  destruct files as [|f r]; [contradiction|].
  apply (read_files_ok fmt c test n (f :: r) F []).
  - simpl. lia.
  - intros l Hl. apply in_flat_map in Hl. destruct Hl as (g & G1 & G2). eapply H; eauto.
Qed.
Print Assumptions C29_read.

(** A line that fails makes the whole read fail with its error, unless n hits were found
    before it; these are then the result. *)
Theorem C29_failing_line : forall fmt (c : RCtx) test n fs1 f fs2 pre l post e,
  In fmt text_formats -> data_lines fmt f = pre ++ l :: post ->
  let before := flat_map (data_lines fmt) fs1 ++ pre in
  (forall k, In k before -> ~ fails (read_hit fmt c (tokens k))) ->
  read_hit fmt c (tokens l) = RRaise e ->
  let found := hits_in (read_hit fmt c) test before in
  new_from_read_builtin fmt c test n (fs1 ++ f :: fs2) =
    if (Z.ltb n 0 || Z.ltb (Z.of_nat (List.length found)) n)%bool
    then inl e else inr (at_most n found).
Proof.
  intros fmt c test n fs1 f fs2 pre l post e F D before H E found.
  destruct (format_facts fmt F) as (_ & _ & _ & _ & _ & F6 & _).
  assert (U : new_from_read_builtin fmt c test n (fs1 ++ f :: fs2) =
              read_files fmt c test n [] (fs1 ++ f :: fs2)).
  { unfold new_from_read_builtin. rewrite F6. cbn [negb]. destruct fs1; reflexivity. }
  rewrite U.
  destruct (read_files_fail fmt c test n fs1 f fs2 pre l post e F []) as [A B]; auto.
  { simpl. lia. }
  cbn [app] in A, B. fold before in A, B. fold found in A, B.
  rewrite orb_comm. destruct (_ || _)%bool eqn:R.
  - apply A, room_left_b, R.
  - apply B, room_left_nb, R.
Qed.
Print Assumptions C29_failing_line.

(** Lines with the wrong number of columns, and only these, are left out. *)
Theorem C29_left_out : forall fmt (c : RCtx) ts, In fmt text_formats ->
  (read_hit fmt c ts = RBad <-> List.length ts <> List.length (columns fmt)).
Proof. intros. apply read_hit_bad. assumption. Qed.
Print Assumptions C29_left_out.
Example C29_left_out_case (c : RCtx) : read_hit "mars_1" c [TInt 1; TInt 7] = RBad.
Proof. apply (C29_left_out "mars_1" c); [simpl; tauto|vm_compute; discriminate]. Qed.

Lemma hit_no_fail r h : r = RHitOk h -> ~ fails r.
Proof. intros -> [e E]. discriminate. Qed.

(** Not every malformed line is left out: a word instead of a number, or an unknown
    particle number, makes the read fail although all other lines are good. *)
Theorem C29_malformed_skipped_refuted : exists good bad1 bad2 e1 e2,
  (forall (c : RCtx), exists h, read_hit "mars_1" c (tokens good) = RHitOk h) /\
  (forall (c : RCtx) test, new_from_read_builtin "mars_1" c test (-1) [[good; bad1]] = inl e1) /\
  (forall (c : RCtx) test, new_from_read_builtin "mars_1" c test (-1) [[good; bad2]] = inl e2) /\
  e1 = IValueError /\ e2 = IKeyError.
Proof.
  set (row := fun a b => LData [TInt 1; TInt a; b; TNum 0; TNum 0; TNum 0; TNum 0; TNum 1; TNum 1; TNum 0; TNum 1]).
  exists (row 7%Z (TNum 0)), (row 7%Z TBad), (row 99%Z (TNum 0)), IValueError, IKeyError.
  assert (I : int32 1 /\ int32 7 /\ int32 99) by (repeat split; lia). destruct I as (I1 & I7 & I99).
  assert (G : forall (c : RCtx), exists h, read_hit "mars_1" c (tokens (row 7%Z (TNum 0))) = RHitOk h).
  { intros c. unfold row, tokens. unfold read_hit. cbn -[Rdiv Rmult c_light py_set complete translate_pid].
    psets. cbn [translate_if]. erewrite translate_pid_eq; [eexists; reflexivity|reflexivity|split; lia]. }
  assert (B1 : forall (c : RCtx), read_hit "mars_1" c (tokens (row 7%Z TBad)) = RRaise IValueError).
  { intros c. unfold row, tokens. unfold read_hit. cbn -[Rdiv Rmult c_light py_set complete translate_pid].
    psets. reflexivity. }
  assert (B2 : forall (c : RCtx), read_hit "mars_1" c (tokens (row 99%Z (TNum 0))) = RRaise IKeyError).
  { intros c. unfold row, tokens. unfold read_hit. cbn -[Rdiv Rmult c_light py_set complete translate_pid].
    psets. cbn [translate_if]. rewrite translate_pid_none; reflexivity. }
  split; [exact G|].
  assert (K : forall bad e, (forall (c : RCtx), read_hit "mars_1" c (tokens bad) = RRaise e) ->
    forall (c : RCtx) test, new_from_read_builtin "mars_1" c test (-1) [[row 7%Z (TNum 0); bad]] = inl e).
  { intros bad e B c test.
    apply (C29_failing_line "mars_1" c test (-1) [] [row 7%Z (TNum 0); bad] [] [row 7%Z (TNum 0)] bad [] e).
    - simpl; tauto.
    - reflexivity.
    - intros k [<-|[]]. destruct (G c) as [h Gh]. exact (hit_no_fail _ _ Gh).
    - apply B. }
  split; [apply K, B1|]. split; [apply K, B2|]. split; reflexivity.
Qed.
Print Assumptions C29_malformed_skipped_refuted.

(** The reader of one file does not go beyond the line that gives the n-th hit. *)
Theorem C29_reads_no_further : forall mk test n ls,
  (forall l, In l ls -> ~ fails (mk (tokens l))) ->
  exists used rest, ls = used ++ rest /\
    read_lines mk test n [] ls = (inr (at_most n (hits_in mk test ls)), rest) /\
    (forall a l b, used = a ++ l :: b ->
       (n < 0 \/ Z.of_nat (List.length (hits_in mk test a)) < n)%Z) /\
    (rest <> [] -> (0 <= n <= Z.of_nat (List.length (hits_in mk test used)))%Z).
Proof.
  intros mk test n ls H.
  destruct (Z.ltb_spec n 0) as [N|N].
  - destruct (read_lines_ok mk test n ls [] (or_introl N) H) as (u & r & A & B & C & D).
    exists u, r. split; auto. split; auto. split; [exact C|].
    intros R. specialize (D R). unfold room_left in D. lia.
  - assert (N' : (n < 0 \/ Z.of_nat (List.length (@nil RHit)) <= n)%Z) by (simpl; lia).
    destruct (read_lines_ok mk test n ls [] N' H) as (u & r & A & B & C & D).
    exists u, r. split; auto. split; auto. split; [exact C|].
    intros R. specialize (D R). unfold room_left in D. cbn [app] in D. rewrite accepted_hits in D. lia.
Qed.
Print Assumptions C29_reads_no_further.
Example C29_no_further_case : forall mk test h, (forall ts, mk ts = RHitOk h) -> test h = true ->
  read_lines mk test 1 [] [LData []; LData []] = (inr [h], [LData []]).
Proof. intros mk test h H T. cbn. rewrite H, T. reflexivity. Qed.

(** User defined formats: the same without comments and with a header of a given number
    of lines. *)
Theorem C29_user_format : forall cols us (c : RCtx) skip test n file,
  (forall l, In l (skipn skip file) -> ~ fails (read_user_hit cols us "" c (tokens l))) ->
  skipn skip file <> [] ->
  new_from_read_user cols us c skip test n file =
    inr (at_most n (hits_in (read_user_hit cols us "" c) test (skipn skip file))).
Proof.
  intros cols us c skip test n file H N. unfold new_from_read_user.
  destruct (skipn skip file) as [|l r]; [contradiction|].
  destruct (C29_reads_no_further (read_user_hit cols us "" c) test n (l :: r) H) as (u & s & _ & E & _).
  rewrite E. reflexivity.
Qed.
Print Assumptions C29_user_format.

(** Whatever was written can be read: the hits of the file are those of the list with a
    particle of the format, in order of station, each restored. *)
Theorem C29_written_file_read : forall (p : list (WOp RNum)) fmt ls comment (c : RCtx) w' file,
  In fmt text_formats -> (forall l, In l ls -> is_hit (wrun p) l) ->
  has_newline (the_comment comment) = false ->
  write_list "mm" fmt (wrun p) ls comment = (w', inr file) ->
  exists sorted hits, by_station (wrun p) ls sorted /\
    new_from_read_builtin fmt c (fun _ => true) (-1) [file] = inr hits /\
    reloaded fmt (wrun p) c sorted hits.
Proof.
  intros p fmt ls comment c w' file F H C W.
  destruct (written_file fmt (wrun p) ls comment F (reach_ints p) H)
    as (hdr & sorted & w1 & E & Q & B & HS & D).
  rewrite E in W. injection W as _ <-. specialize (D C).
  destruct (lines_reloaded fmt (wrun p) c sorted F (reach_ints p) HS) as [R1 R2].
  eexists sorted, _. split; auto. split; [|exact R2].
  rewrite C29_read; auto.
  - cbn [flat_map]. rewrite D, app_nil_r. reflexivity.
  - discriminate.
  - intros f l [<-|[]] Hl. rewrite D in Hl. auto.
Qed.
Print Assumptions C29_written_file_read.
Example C29_case : exists w' file hits sorted,
  write_list "mm" "icool_for009" (wrun ex_beam) [0; 1; 2]%nat None = (w', inr file) /\
  new_from_read_builtin "icool_for009" (cur_ctx (wrun ex_beam)) (fun _ => true) (-1) [file] = inr hits /\
  reloaded "icool_for009" (wrun ex_beam) (cur_ctx (wrun ex_beam)) sorted hits.
Proof.
  assert (H : forall l, In l [0; 1; 2]%nat -> is_hit (wrun ex_beam) l).
  { intros l [<-|[<-|[<-|[]]]]; (eapply (is_hit_of_get _ _ _ "spill"); vm_compute; reflexivity). }
  destruct (C28_file_written ex_beam "icool_for009" [0; 1; 2]%nat None (or_introl eq_refl) H)
    as (file & w' & _ & _ & _ & E & _).
  destruct (C29_written_file_read ex_beam "icool_for009" [0; 1; 2]%nat None (cur_ctx (wrun ex_beam)) w' file
    (or_introl eq_refl) H eq_refl E) as (sorted & hits & _ & A & B).
  exists w', file, hits, sorted. auto.
Qed.
