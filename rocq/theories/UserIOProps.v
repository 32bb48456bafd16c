(** User defined text formats, and dictionaries of bunches in files: C79. *)
From Coq Require Import Reals ZArith String List Bool Lia Lra.
From Verif Require Import Num WeightModel HitcoreModel HitcoreSpec HitcoreProofs PyLibModel HitPyModel HitPySpec HitPyProofs TableModel
  BunchModel BunchSpec BunchProofs BunchNumModel IOModel IOSpec IOProofs IOProps UserIOModel UserIOSpec UserIOProofs.
Import ListNotations.
Open Scope string_scope.
Open Scope list_scope.
Open Scope R_scope.

(** Writing gives one line for each hit of the bunch, in its order; the columns hold the variables
    in the units given. *)
Theorem C79_lines : forall (p : list (WOp RNum)) b cols us,
  plain_format cols -> plain_units cols us -> (forall l, In l (b_hits b) -> is_hit (wrun p) l) ->
  exists lines, hit_write_user (wrun p) b cols us SBlank false = (lines, None) /\
    Forall2 (user_line (wrun p) cols us) (b_hits b) lines.
Proof.
  intros p b cols us F U H.
  destruct (user_written (wrun p) cols us (b_hits b) SBlank F U (reach_ints p) H) as (tss & T1 & T2).
  exists (map (line_of SBlank) tss). split; [exact T1|]. clear T1 H.
  induction T2 as [|l ts ls tss (h & E1 & E2 & E3 & E4) T2 IH]; cbn [map]; constructor; auto.
  exists (h, cur_ctx (wrun p)), ts. split; [split; auto|]. split; [reflexivity|]. apply write_holds; auto.
Qed.
Print Assumptions C79_lines.

(** The same format and units read the file, after a header of any length, as the same hits in the
    same order: variables of the format are restored, mass and charge are those of the particle if
    not in the file, and the rest is that of a new hit. *)
Theorem C79_round_trip : forall (p : list (WOp RNum)) b cols us (c : RCtx) header,
  plain_format cols -> plain_units cols us -> (forall l, In l (b_hits b) -> is_hit (wrun p) l) ->
  (forall l pid, In l (b_hits b) -> has_pid (wrun p) l pid -> particle_known cols pid) ->
  exists lines hs, hit_write_user (wrun p) b cols us SBlank false = (lines, None) /\
    new_from_read_user cols us c (List.length header) (fun _ => true) (-1) (header ++ lines) = inr hs /\
    Forall2 (user_reloaded (wrun p) cols c) (b_hits b) hs.
Proof.
  intros p b cols us c header F U H K.
  destruct (user_written (wrun p) cols us (b_hits b) SBlank F U (reach_ints p) H) as (tss & T1 & T2).
  destruct (written_read_all (wrun p) cols us c F U _ _ T2 K) as (hs & I1 & I2 & I3).
  exists (map (line_of SBlank) tss), hs. split; [exact T1|]. split; [|exact I3].
  assert (Sk : skipn (List.length header) (header ++ map (line_of SBlank) tss) = map LData tss).
  { rewrite skipn_app, skipn_all, Nat.sub_diag. reflexivity. }
  destruct tss as [|ts tss].
  - unfold new_from_read_user. rewrite Sk. cbn [map]. rewrite (plain_ok cols us F U). cbn [negb andb]. rewrite <- I1. reflexivity.
  - rewrite C29_user_format; rewrite Sk; auto; [|discriminate]. rewrite I1. reflexivity.
Qed.
Print Assumptions C79_round_trip.

(** A particle whose mass or charge is neither in the file nor in the tables: nothing of the file can
    be read. *)
Theorem C79_unknown_particle : forall (p : list (WOp RNum)) b cols us (c : RCtx) header,
  plain_format cols -> plain_units cols us -> (forall l, In l (b_hits b) -> is_hit (wrun p) l) ->
  (exists l pid, In l (b_hits b) /\ has_pid (wrun p) l pid /\ ~ particle_known cols pid) ->
  exists lines, hit_write_user (wrun p) b cols us SBlank false = (lines, None) /\
    new_from_read_user cols us c (List.length header) (fun _ => true) (-1) (header ++ lines) = inl IKeyError.
Proof.
  intros p b cols us c header F U H K.
  destruct (user_written (wrun p) cols us (b_hits b) SBlank F U (reach_ints p) H) as (tss & T1 & T2).
  exists (map (line_of SBlank) tss). split; [exact T1|].
  assert (Sk : skipn (List.length header) (header ++ map (line_of SBlank) tss) = map LData tss).
  { rewrite skipn_app, skipn_all, Nat.sub_diag. reflexivity. }
  assert (A : forall acc, fst (read_lines (read_user_hit cols us "" c) (fun _ => true) (-1) acc (map LData tss)) = inl IKeyError).
  { clear T1 Sk H. revert K. induction T2 as [|l ts ls tss (h & E1 & E2 & E3 & E4) T2 IH]; intros (l0 & pid & I & P & N) acc; [destruct I|].
    cbn [map read_lines tokens]. replace (Z.ltb (Z.of_nat (List.length acc)) (-1) || Z.ltb (-1) 0)%bool with true by (rewrite orb_true_r; reflexivity).
    destruct (read_user_written cols us h (cur_ctx (wrun p)) c ts F U E2 E3) as [P1 P2].
    assert (D : particle_known cols (h_int h Ipid) \/ ~ particle_known cols (h_int h Ipid)).
    { unfold particle_known. destruct (in_format cols "mass"), (in_format cols "charge"),
        (zassoc pdg_pid_to_mass (Z.abs (particle_seen cols (h_int h Ipid)))),
        (zassoc pdg_pid_to_charge (particle_seen cols (h_int h Ipid)));
        first [left; split; congruence | right; intros [X1 X2]; first [apply (X1 eq_refl eq_refl) | apply (X2 eq_refl eq_refl)]]. }
    destruct D as [D|D].
    - destruct (P1 D) as (h' & -> & _). apply IH. destruct I as [<- | I].
      + exfalso. unfold has_pid, hit_get in P. rewrite E1 in P. injection P as <-. auto.
      + exists l0, pid. auto.
    - rewrite (P2 D). reflexivity. }
  unfold new_from_read_user. rewrite Sk. destruct tss as [|ts tss]; [|apply A].
  inversion T2 as [L|]. destruct K as (l & pid & I & _). rewrite <- L in I. destruct I.
Qed.
Print Assumptions C79_unknown_particle.

(** Lines written with a separator that is not white space are not read back: with two or more
    columns the reader returns an empty bunch without an error. *)
Theorem C79_separator : forall (p : list (WOp RNum)) b cols us (c : RCtx) header,
  plain_format cols -> plain_units cols us -> (forall l, In l (b_hits b) -> is_hit (wrun p) l) ->
  (2 <= List.length cols)%nat ->
  exists lines, hit_write_user (wrun p) b cols us SJoin false = (lines, None) /\ List.length lines = List.length (b_hits b) /\
    new_from_read_user cols us c (List.length header) (fun _ => true) (-1) (header ++ lines) = inr [].
Proof.
  intros p b cols us c header F U H L2.
  destruct (user_written (wrun p) cols us (b_hits b) SJoin F U (reach_ints p) H) as (tss & T1 & T2).
  exists (map (line_of SJoin) tss). split; [exact T1|]. split.
  { rewrite map_length. clear T1 H. induction T2; cbn; auto. }
  assert (Sk : skipn (List.length header) (header ++ map (line_of SJoin) tss) = map (fun _ => LData [TBad]) tss).
  { rewrite skipn_app, skipn_all, Nat.sub_diag. cbn [app skipn]. clear T1 H.
    induction T2 as [|l ts ls tss (h & E1 & E2 & E3 & E4) T2 IH]; cbn [map]; auto. rewrite IH.
    destruct ts; [cbn in E4; lia|]. reflexivity. }
  unfold new_from_read_user. rewrite Sk. destruct tss as [|ts tss].
  { cbn [map]. rewrite (plain_ok cols us F U). reflexivity. }
  assert (Rb : read_user_hit cols us "" c [TBad] = RBad).
  { unfold read_user_hit. rewrite (plain_ok cols us F U). cbn [negb].
    replace (read_formatted us cols c [TBad]) with RBad; auto. unfold read_formatted. cbn [List.length].
    destruct cols as [|k1 [|k2 cols]]; cbn in L2; try lia. reflexivity. }
  change (map (fun _ : list Tok => LData [TBad]) (ts :: tss)) with (LData [TBad] :: map (fun _ : list Tok => LData [TBad]) tss).
  generalize (ts :: tss). clear - Rb. intros l.
  change (LData [TBad] :: map (fun _ : list Tok => LData [TBad]) tss) with (map (fun _ : list Tok => LData [TBad]) ([] :: tss)).
  induction ([] :: tss) as [|a r IH]; [reflexivity|]. cbn [map read_lines tokens]. rewrite Rb. exact IH.
Qed.
Print Assumptions C79_separator.
Theorem C79_separator_one_column : forall (p : list (WOp RNum)) b k us (c : RCtx) header,
  plain_format [k] -> plain_units [k] us -> (forall l, In l (b_hits b) -> is_hit (wrun p) l) ->
  k <> "" -> b_hits b <> [] ->
  exists lines, hit_write_user (wrun p) b [k] us SJoin false = (lines, None) /\
    new_from_read_user [k] us c (List.length header) (fun _ => true) (-1) (header ++ lines) = inl IValueError.
Proof.
  intros p b k us c header F U H Nk Nb.
  destruct (user_written (wrun p) [k] us (b_hits b) SJoin F U (reach_ints p) H) as (tss & T1 & T2).
  exists (map (line_of SJoin) tss). split; [exact T1|]. unfold new_from_read_user.
  rewrite skipn_app, skipn_all, Nat.sub_diag. cbn [app skipn].
  destruct T2 as [|l ts ls tss (h & E1 & E2 & E3 & E4) T2]; [contradiction|].
  destruct ts as [|t ts]; [cbn in E4; lia|]. cbn [map line_of read_lines tokens List.length Z.of_nat Z.ltb Z.compare orb].
  unfold read_user_hit. rewrite (plain_ok _ _ F U). cbn [negb]. unfold read_formatted. cbn [List.length Nat.eqb negb read_columns].
  rewrite (proj2 (String.eqb_neq _ _) Nk). unfold read_value.
  destruct (F k (or_introl eq_refl)) as [-> | [S1 | S1]]; [contradiction| |].
  - destruct (float_types k S1) as (A1 & A2 & A3). rewrite A1, A2. reflexivity.
  - destruct (int_types k S1) as (A1 & _). rewrite A1. reflexivity.
Qed.
Print Assumptions C79_separator_one_column.

(** Two hits of the example program, and a format of four columns, one of them unused. *)
Definition ex79 : Bunch := mkBunch [0; 2]%nat [].
Definition ex79_cols : list string := ["x"; "pz"; ""; "pid"].
Definition ex79_units : list (string * string) := [("x", "m"); ("pz", "GeV/c"); ("pid", "")].
Example C79_case : plain_format ex79_cols /\ plain_units ex79_cols ex79_units /\ (2 <= List.length ex79_cols)%nat /\
  (forall l, In l (b_hits ex79) -> is_hit (wrun ex_beam) l) /\
  (forall l pid, In l (b_hits ex79) -> has_pid (wrun ex_beam) l pid -> particle_known ex79_cols pid) /\
  exists l, In l (b_hits ex79) /\ hit_get (wrun ex_beam) l "x" = Some (PFloat (3 : RNum)).
Proof.
  split; [|split; [|split; [|split; [|split]]]].
  - intros k I. simpl in I. destruct I as [<- | [<- | [<- | [<- | []]]]]; simpl; tauto.
  - intros k I N. simpl in I. destruct I as [<- | [<- | [<- | [<- | []]]]]; [| |contradiction|].
    + exists "m", 1000. repeat split; try (vm_compute; reflexivity). simpl. intros H. decompose [or] H; try discriminate; contradiction.
    + exists "GeV/c", 1000. repeat split; try (vm_compute; reflexivity). simpl. intros H. decompose [or] H; try discriminate; contradiction.
    + exists "", 1. repeat split; vm_compute; reflexivity.
  - simpl. lia.
  - intros l [<- | [<- | []]]; (eapply (is_hit_of_get _ _ _ "spill"); vm_compute; reflexivity).
  - intros l pid [<- | [<- | []]] P; vm_compute in P; injection P as <-; split; intros _ D; vm_compute in D; discriminate.
  - exists 0%nat. split; [left; reflexivity|]. reflexivity.
Qed.
(** A particle that is not in the tables, with its mass and charge in the file and without. *)
Example C79_unknown_case : ~ particle_known ["x"; "pid"] 12345 /\ particle_known ["x"; "pid"; "mass"; "charge"] 12345.
Proof. split; [intros [H _]; apply H; reflexivity|]. split; discriminate. Qed.

(** Sorting on writing: giving a comparator raises and nothing is written. *)
Example C79_comparator : forall (p : list (WOp RNum)) b cols us sep,
  hit_write_user (wrun p) b cols us sep true = ([], Some (IPy ETypeError)).
Proof. reflexivity. Qed.

(** Columns that hits have but files cannot: with 'spill' or 'global_weight' in the format, writing
    any hit raises, and so does reading any file. *)
Theorem C79_columns_refuted : forall (p : list (WOp RNum)) b cols us sep (c : RCtx) header k file,
  In k ["spill"; "global_weight"] -> In k cols -> b_hits b <> [] ->
  (exists e, hit_write_user (wrun p) b cols us sep false = ([], Some e)) /\
  new_from_read_user cols us c (List.length header) (fun _ => true) (-1) (header ++ file) = inl IKeyError.
Proof.
  intros p b cols us sep c header k file Hk I Nb. split.
  - unfold hit_write_user. destruct (b_hits b) as [|l ls]; [contradiction|]. cbn [write_user_loop]. unfold write_user_at.
    destruct (w_hits (wrun p) l) as [h|]; [|eexists; reflexivity].
    assert (A : exists e, write_columns (h, cur_ctx (wrun p)) us cols = inl e).
    { induction cols as [|k' cols IH]; [destruct I|]. cbn [write_columns].
      destruct (write_column (h, cur_ctx (wrun p)) us k') as [e|t] eqn:E; [eexists; reflexivity|]. destruct I as [-> | I].
      - exfalso. unfold write_column in E. destruct Hk as [<- | [<- | []]]; cbn [String.eqb Ascii.eqb Bool.eqb] in E.
        + destruct (py_get (h, cur_ctx (wrun p)) "spill") as [|v]; [discriminate|]. destruct (assoc us "spill") as [u|]; [|discriminate].
          destruct (assoc units u), (as_real v); discriminate.
        + destruct (py_get (h, cur_ctx (wrun p)) "global_weight") as [|v]; [discriminate|]. destruct (assoc us "global_weight") as [u|]; [|discriminate].
          destruct (assoc units u), (as_real v); discriminate.
      - destruct (IH I) as (e & ->). eexists; reflexivity. }
    destruct A as (e & ->). exists e. reflexivity.
  - assert (B : user_format_ok cols us = false).
    { destruct (user_format_ok cols us) eqn:E; auto. unfold user_format_ok in E. rewrite forallb_forall in E. specialize (E k I).
      destruct Hk as [<- | [<- | []]]; discriminate. }
    unfold new_from_read_user. rewrite skipn_app, skipn_all, Nat.sub_diag. cbn [app skipn]. destruct file as [|line file].
    + rewrite B. reflexivity.
    + cbn [read_lines List.length Z.of_nat Z.ltb Z.compare orb]. unfold read_user_hit at 1. rewrite B. reflexivity.
Qed.
Print Assumptions C79_columns_refuted.
(** These are variables that every hit has. *)
Example C79_columns_case : hit_get (wrun ex_beam) 0 "spill" = Some (PInt 0) /\ stored "spill" /\
  hit_get (wrun ex_beam) 0 "global_weight" = Some (PFloat (1 : RNum)).
Proof. split; [reflexivity|]. split; [right; simpl; tauto|]. reflexivity. Qed.

(** Units: a column of the format without unit can be read if it is an integer, but not written. *)
Theorem C79_units_written : forall (p : list (WOp RNum)) b cols us sep k,
  In k cols -> k <> "" -> assoc us k = None -> b_hits b <> [] ->
  exists e, hit_write_user (wrun p) b cols us sep false = ([], Some e).
Proof.
  intros p b cols us sep k I Nk Nu Nb. unfold hit_write_user. destruct (b_hits b) as [|l ls]; [contradiction|].
  cbn [write_user_loop]. unfold write_user_at. destruct (w_hits (wrun p) l) as [h|]; [|eexists; reflexivity].
  assert (A : exists e, write_columns (h, cur_ctx (wrun p)) us cols = inl e).
  { induction cols as [|k' cols IH]; [destruct I|]. cbn [write_columns].
    destruct (write_column (h, cur_ctx (wrun p)) us k') as [e|t] eqn:E; [eexists; reflexivity|]. destruct I as [-> | I].
    - exfalso. unfold write_column in E. rewrite (proj2 (String.eqb_neq _ _) Nk), Nu in E.
      destruct (py_get (h, cur_ctx (wrun p)) k); discriminate.
    - destruct (IH I) as (e & ->). eexists; reflexivity. }
  destruct A as (e & ->). exists e. reflexivity.
Qed.
Print Assumptions C79_units_written.
Theorem C79_units_refuted : exists cols us, forall (p : list (WOp RNum)) b (c : RCtx) sep,
  (forall z, int32 z -> exists h, new_from_read_user cols us c 0 (fun _ => true) (-1) [LData [TInt z]] = inr [h] /\
     py_get (h, c) "event_number" = inr (PInt z)) /\
  (b_hits b <> [] -> exists e, hit_write_user (wrun p) b cols us sep false = ([], Some e)).
Proof.
  exists ["event_number"], []. intros p b c sep. split.
  - intros z Hz. eexists. split.
    + unfold new_from_read_user. cbn [skipn read_lines List.length Z.of_nat Z.ltb Z.compare orb tokens].
      unfold read_user_hit at 1. change (user_format_ok ["event_number"] []) with true. cbn [negb].
      unfold read_formatted. cbn [List.length Nat.eqb negb read_columns String.eqb]. unfold read_value at 1.
      change (is_in "event_number" int_vars) with true. cbn [List.length Nat.eqb].
      rewrite (pset_int hit_new c "event_number" Ievent z) by (auto; reflexivity). reflexivity.
    + reflexivity.
  - intros N. apply (C79_units_written p b _ _ sep "event_number"); auto; [left; reflexivity|discriminate].
Qed.
Print Assumptions C79_units_refuted.

(** The unit of an integer column is used on writing only: the number is not restored. *)
Theorem C79_integer_unit_refuted : exists p cols us h h' (c : RCtx) lines,
  plain_format cols /\ (forall k, In k cols -> exists u f, assoc us k = Some u /\ assoc units u = Some f) /\
  w_hits (wrun p) 0%nat = Some h /\
  hit_write_user (wrun p) (mkBunch [0%nat] []) cols us SBlank false = (lines, None) /\
  new_from_read_user cols us c 0 (fun _ => true) (-1) lines = inr [h'] /\
  py_get (h, c) "event_number" = inr (PInt 7) /\ py_get (h', c) "event_number" = inr (PInt 0).
Proof.
  exists [WNew; WSet 0 "event_number" (PInt 7)], ["event_number"], [("event_number", "m")].
  destruct (w_hits (wrun (N := RNum) [WNew; WSet 0 "event_number" (PInt 7)]) 0%nat) as [h|] eqn:E; [|discriminate].
  assert (H7 : h_int h Ievent = 7%Z) by (injection E as <-; reflexivity).
  exists h. eexists. exists (cur_ctx (wrun (N := RNum) [WNew; WSet 0 "event_number" (PInt 7)])), [LData [TInt 0]].
  split; [intros k [<- | []]; right; right; left; reflexivity|].
  split; [intros k [<- | []]; exists "m", 1000; split; reflexivity|].
  split; [reflexivity|].
  assert (T : trunc (IZR 7 / 1000) = 0%Z).
  { unfold trunc. destruct (Rle_dec 0 (IZR 7 / 1000)); [|exfalso; lra]. apply Rfloor_unique. lra. }
  split.
  { unfold hit_write_user. cbn [b_hits write_user_loop]. unfold write_user_at. rewrite E. cbn [write_columns].
    assert (Wc : forall c' : RCtx, write_column (h, c') [("event_number", "m")] "event_number" = inr (TInt (trunc (IZR (h_int h Ievent) / 1000)))) by reflexivity.
    rewrite Wc, H7, T. reflexivity. }
  split; [reflexivity|]. split; [|reflexivity].
  change (@inr PyErr RVal (PInt (h_int h Ievent)) = inr (PInt 7)). rewrite H7. reflexivity.
Qed.
Print Assumptions C79_integer_unit_refuted.

(** A dictionary of bunches in one file: all hits of all bunches, by station; and the comment of a
    single bunch, but not that of a dictionary, is in the file. *)
Theorem C79_dictionary : forall (p : list (WOp RNum)) fmt bunches comment (c : RCtx),
  In fmt text_formats -> (forall b l, In b bunches -> In l (b_hits b) -> is_hit (wrun p) l) ->
  exists w' file sorted hits,
    hit_write_builtin_from_dict "mm" (wrun p) bunches fmt comment = (w', inr file) /\ nothing_changed (wrun p) w' /\
    by_station (wrun p) (flat_map b_hits bunches) sorted /\
    new_from_read_builtin fmt c (fun _ => true) (-1) [file] = inr hits /\ reloaded fmt (wrun p) c sorted hits.
Proof.
  intros p fmt bunches comment c F H.
  assert (H' : forall l, In l (flat_map b_hits bunches) -> is_hit (wrun p) l).
  { intros l I. apply in_flat_map in I. destruct I as (b & I1 & I2). eauto. }
  destruct (C28_file_written p fmt (flat_map b_hits bunches) None F H') as (file & w' & _ & _ & _ & E & Q & _).
  destruct (C29_written_file_read p fmt (flat_map b_hits bunches) None c w' file F H' eq_refl E) as (sorted & hits & A1 & A2 & A3).
  exists w', file, sorted, hits. split; auto. unfold hit_write_builtin_from_dict.
  assert (X : is_in fmt file_types = true) by (clear - F; simpl in F; repeat (destruct F as [<- | F]; [reflexivity|]); contradiction).
  rewrite X. exact E.
Qed.
Print Assumptions C79_dictionary.
Theorem C79_bunch_file : forall (p : list (WOp RNum)) fmt b comment (c : RCtx),
  In fmt text_formats -> (forall l, In l (b_hits b) -> is_hit (wrun p) l) -> has_newline (the_comment comment) = false ->
  exists w' file sorted hits,
    hit_write_builtin "mm" (wrun p) b fmt comment = (w', inr file) /\ nothing_changed (wrun p) w' /\
    by_station (wrun p) (b_hits b) sorted /\
    new_from_read_builtin fmt c (fun _ => true) (-1) [file] = inr hits /\ reloaded fmt (wrun p) c sorted hits.
Proof.
  intros p fmt b comment c F H C.
  destruct (C28_file_written p fmt (b_hits b) comment F H) as (file & w' & _ & _ & _ & E & Q & _).
  destruct (C29_written_file_read p fmt (b_hits b) comment c w' file F H C E) as (sorted & hits & A1 & A2 & A3).
  exists w', file, sorted, hits. split; auto. unfold hit_write_builtin.
  assert (X : is_in fmt file_types = true) by (clear - F; simpl in F; repeat (destruct F as [<- | F]; [reflexivity|]); contradiction).
  rewrite X. exact E.
Qed.
Print Assumptions C79_bunch_file.
Example C79_dictionary_case : In "icool_for009" text_formats /\
  (forall b l, In b [mkBunch [0]%nat []; mkBunch [1; 2]%nat []] -> In l (b_hits b) -> is_hit (wrun ex_beam) l).
Proof.
  split; [simpl; tauto|]. intros b l [<- | [<- | []]] I; simpl in I; repeat (destruct I as [<- | I]; [eapply (is_hit_of_get _ _ _ "spill"); vm_compute; reflexivity|]); contradiction.
Qed.

(** The comment given for a dictionary is not in the file. *)
Theorem C79_dictionary_comment_refuted :
  (forall (p : list (WOp RNum)) fmt bunches c1 c2,
     hit_write_builtin_from_dict "mm" (wrun p) bunches fmt c1 = hit_write_builtin_from_dict "mm" (wrun p) bunches fmt c2) /\
  (exists file file' w w', hit_write_builtin "mm" (wrun []) bunch_new "icool_for009" (Some "run 1") = (w, inr file) /\
     hit_write_builtin "mm" (wrun []) bunch_new "icool_for009" (Some "run 2") = (w', inr file') /\ file <> file').
Proof.
  split; [reflexivity|]. do 4 eexists. split; [reflexivity|]. split; [reflexivity|]. vm_compute. discriminate.
Qed.
Print Assumptions C79_dictionary_comment_refuted.
