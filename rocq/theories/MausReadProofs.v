(** Proofs for the MAUS formats: reading. *)
From Coq Require Import Reals ZArith Bool String Ascii Lia Lra FunctionalExtensionality List Permutation.
From Verif Require Import Num WeightModel HitcoreModel HitcoreSpec HitcoreProofs PyLibModel HitPyModel HitPySpec
  HitPyProofs TableModel IOModel IOSpec IOProofs CommonModel MausModel MausSpec MausProofs.
Import ListNotations.
Open Scope list_scope.

Lemma hit_eq (h h' : RHit) : (forall v, h_dbl h v = h_dbl h' v) -> (forall i, h_int h i = h_int h' i) -> h = h'.
Proof.
  destruct h as [f g], h' as [f' g']. cbn. intros A B.
  rewrite (functional_extensionality f f' A), (functional_extensionality g g' B). reflexivity.
Qed.

Lemma number_length {A} (l : list A) : forall n, List.length (number n l) = List.length l.
Proof. induction l; intros; simpl; auto. Qed.
Lemma in_number {A} (l : list A) : forall n e, In e (number n l) ->
  In (snd e) l /\ (n <= fst e < n + List.length l)%nat.
Proof.
  induction l as [|a l IH]; intros n e; simpl; [tauto|]. intros [<- | I]; simpl; [split; auto; lia|].
  destruct (IH _ _ I). split; auto. lia.
Qed.

(** One hit. *)
Lemma small32 n : small n -> int32 (Z.of_nat n).
Proof. unfold small, int32. lia. Qed.

Definition spill_no (d : list (string * Json)) (i : nat) : Prop :=
  assoc d "spill_number" = Some (int (Z.of_nat i)).

Arguments in_long : simpl never.
Arguments wrap32 : simpl never.

Lemma hit_of_virtual (c : RCtx) d i ev (h : RHit) : spill_no d i -> small i -> small ev -> ints32 h ->
  hit_of true c "virtual_hit" d (virtual_object h) ev = inr (restored i ev h).
Proof.
  intros SN Hi He H32. unfold hit_of.
  assert (E : hit_from_maus true c "virtual_hit" (virtual_object h) ev =
    hit_from_dict c [("x", fl (h_dbl h Vx)); ("y", fl (h_dbl h Vy)); ("z", fl (h_dbl h Vz));
      ("px", fl (h_dbl h Vpx)); ("py", fl (h_dbl h Vpy)); ("pz", fl (h_dbl h Vpz));
      ("bx", fl (h_dbl h Vbx)); ("by", fl (h_dbl h Vby)); ("bz", fl (h_dbl h Vbz));
      ("ex", fl (h_dbl h Vex)); ("ey", fl (h_dbl h Vey)); ("ez", fl (h_dbl h Vez));
      ("station", PInt (h_int h Istation)); ("pid", PInt (h_int h Ipid)); ("particle_number", PInt (h_int h Iparticle));
      ("t", fl (h_dbl h Vt)); ("mass", fl (h_dbl h Vmass)); ("charge", fl (h_dbl h Vcharge));
      ("proper_time", fl (h_dbl h Vproper_time)); ("path_length", fl (h_dbl h Vpath_length));
      ("event_number", PInt (Z.of_nat ev))]%string "energy") by reflexivity.
  rewrite E. clear E.
  pose proof (H32 Istation). pose proof (H32 Ipid). pose proof (H32 Iparticle).
  pose proof (small32 _ Hi) as I1. pose proof (small32 _ He) as I2.
  unfold hit_from_dict. cbn [set_vals]. unfold fl. psets.
  cbn [mass_shell String.eqb Ascii.eqb Bool.eqb ms_err]. cbv zeta. cbn [String.eqb Ascii.eqb Bool.eqb].
  unfold spill_no in SN. unfold mass_shell.
  cbn -[hit_set_int hit_set_dbl hit_new py_set sd gd].
  rewrite SN. cbn [to_val int]. psets.
  f_equal. apply hit_eq.
  - intros v. destruct v; try reflexivity.
    unfold restored, momentum_squared. cbn -[sqrt]. apply (f_equal sqrt). rring.
  - intros v. destruct v; reflexivity.
Qed.

Lemma shell_fixed (h : RHit) : on_shell h -> (0 < momentum_squared h)%R ->
  exists h', mass_shell h "p" = (h', MsTrue) /\ h' = h.
Proof.
  intros S P. pose proof (shell_p_eq h) as E. unfold on_shell in S.
  assert (D : (h_dbl h Venergy * h_dbl h Venergy - h_dbl h Vmass * h_dbl h Vmass = p2 h)%R)
    by (unfold p2, gd; rewrite S; rring).
  assert (LE : (h_dbl h Vmass * h_dbl h Vmass <= h_dbl h Venergy * h_dbl h Venergy)%R)
    by (pose proof (p2_nonneg h); lra).
  specialize (E LE). rewrite D in E. rewrite E. eexists. split; [reflexivity|].
  pose proof (set_p_effect h (sqrt (p2 h))) as H. destruct (set_p h _) as [h' e]. cbn [fst].
  destruct H as (_ & (A & B) & _ & C & _).
  assert (G : get_p h = sqrt (p2 h)) by reflexivity.
  assert (NZ : sqrt (p2 h) <> 0%R).
  { apply Rgt_not_eq. apply sqrt_lt_R0. unfold p2, gd. unfold momentum_squared in P. lra. }
  rewrite G in C. destruct (C NZ) as (C1 & C2 & C3).
  assert (U : (sqrt (p2 h) / sqrt (p2 h) = 1)%R) by (field; auto).
  rewrite U in C1, C2, C3.
  apply hit_eq; [|auto]. intros v.
  destruct (dblvar_eq_dec v Vpx) as [-> | N1]; [rewrite C1; rring|].
  destruct (dblvar_eq_dec v Vpy) as [-> | N2]; [rewrite C2; rring|].
  destruct (dblvar_eq_dec v Vpz) as [-> | N3]; [rewrite C3; rring|].
  apply A. simpl. intuition.
Qed.

Lemma pset_charge (h : RHit) (c : RCtx) pid :
  py_set (h, c) "charge" (charge_val (PInt pid)) = ((hit_set_dbl h Vcharge (charge_for pid : RNum), c), None).
Proof.
  unfold charge_val, charge_for. destruct (zassoc pdg_pid_to_charge pid); reflexivity.
Qed.
Lemma mass_val_for pid : mass_val (PInt pid) = fl (mass_for pid).
Proof. unfold mass_val, mass_for, fl. destruct (zassoc pdg_pid_to_mass (Z.abs pid)); reflexivity. Qed.

Arguments charge_val : simpl never.
Arguments mass_val : simpl never.
Arguments mass_for : simpl never.
Arguments charge_for : simpl never.
Arguments mass_shell : simpl never.
Arguments py_set : simpl never.
Arguments hit_set_dbl : simpl never.
Arguments hit_set_int : simpl never.
Arguments hit_new : simpl never.

Lemma hit_of_primary (c : RCtx) d i ev (h : RHit) : spill_no d i -> small i -> small ev -> ints32 h ->
  physical h ->
  hit_of true c "primary" d (primary_object h) ev = inr (restored_primary i ev h).
Proof.
  intros SN Hi He H32 (PM & PS & PP & PE). unfold hit_of.
  assert (E : hit_from_maus true c "primary" (primary_object h) ev =
    hit_from_dict c [("x", fl (h_dbl h Vx)); ("y", fl (h_dbl h Vy)); ("z", fl (h_dbl h Vz));
      ("px", fl (h_dbl h Vpx)); ("py", fl (h_dbl h Vpy)); ("pz", fl (h_dbl h Vpz));
      ("pid", PInt (h_int h Ipid)); ("t", fl (h_dbl h Vt)); ("energy", fl (h_dbl h Venergy));
      ("event_number", PInt (Z.of_nat ev)); ("mass", mass_val (PInt (h_int h Ipid)));
      ("charge", charge_val (PInt (h_int h Ipid)))]%string "p") by reflexivity.
  rewrite E. clear E. rewrite mass_val_for.
  pose proof (H32 Ipid).
  pose proof (small32 _ Hi) as I1. pose proof (small32 _ He) as I2.
  unfold hit_from_dict. cbn [set_vals]. unfold fl. psets. rewrite pset_charge.
  match goal with |- context[mass_shell ?g "p"] =>
    destruct (shell_fixed g) as (h' & M & ->); [ | |rewrite M] end.
  - unfold on_shell in *. rewrite PM in PS. exact PS.
  - exact PP.
  - cbn [ms_err]. unfold spill_no in SN. rewrite SN. cbn [to_val int]. psets.
    f_equal. apply hit_eq; intros v; destruct v; reflexivity.
Qed.

(** One event, one spill. *)
Lemma event_hits_ok mk (g : Json -> RHit) js : forall acc, (forall j, In j js -> mk j = inr (g j)) ->
  event_hits mk js acc = (acc ++ map g js, None).
Proof.
  induction js as [|j js IH]; intros acc H; simpl.
  - rewrite app_nil_r. reflexivity.
  - rewrite H by (simpl; auto). rewrite IH by (intros; apply H; simpl; auto).
    rewrite <- app_assoc. reflexivity.
Qed.
Lemma event_hits_map mk {B} (o : B -> Json) (g : B -> RHit) bs : forall acc, (forall b, In b bs -> mk (o b) = inr (g b)) ->
  event_hits mk (map o bs) acc = (acc ++ map g bs, None).
Proof.
  induction bs as [|j js IH]; intros acc H; simpl.
  - rewrite app_nil_r. reflexivity.
  - rewrite H by (simpl; auto). rewrite IH by (intros; apply H; simpl; auto).
    rewrite <- app_assoc. reflexivity.
Qed.

Lemma spill_virtual {B} (c : RCtx) d i (o : B -> list (string * Json)) (hs : B -> list RHit) bs :
  spill_no d i -> small i ->
  (forall b, In b bs -> assoc (o b) "virtual_hits" = Some (JList (map virtual_object (hs b))) /\ Forall ints32 (hs b)) ->
  forall n acc, small (n + List.length bs) ->
  spill_hits true c "virtual_hit" d (map (fun b => JDict (o b)) bs) n acc =
  (acc ++ flat_map (fun e => map (restored i (fst e)) (hs (snd e))) (number n bs), None).
Proof.
  intros SN Hi. induction bs as [|b bs IH]; intros H n acc Hn.
  - simpl. rewrite app_nil_r. reflexivity.
  - cbn [map spill_hits number flat_map fst snd].
    change (assoc r_list "virtual_hit") with (Some "virtual_hits"%string). cbv beta iota.
    destruct (H b (or_introl eq_refl)) as [E F]. rewrite E.
    change (String.eqb "virtual_hit" "primary") with false. cbv beta iota zeta.
    rewrite (event_hits_map _ virtual_object (restored i n)).
    + rewrite IH.
      * rewrite <- app_assoc. reflexivity.
      * intros; apply H; simpl; auto.
      * cbn [List.length] in Hn. unfold small in *. lia.
    + intros h I. apply hit_of_virtual; auto.
      * unfold small in *. cbn [List.length] in Hn. lia.
      * eapply Forall_forall in F; eauto.
Qed.
Lemma spill_primary {B} (c : RCtx) d i (o : B -> list (string * Json)) (p : B -> RHit) bs :
  spill_no d i -> small i ->
  (forall b, In b bs -> assoc (o b) "primary" = Some (primary_object (p b)) /\ ints32 (p b) /\ physical (p b)) ->
  forall n acc, small (n + List.length bs) ->
  spill_hits true c "primary" d (map (fun b => JDict (o b)) bs) n acc =
  (acc ++ map (fun e => restored_primary i (fst e) (p (snd e))) (number n bs), None).
Proof.
  intros SN Hi. induction bs as [|b bs IH]; intros H n acc Hn.
  - simpl. rewrite app_nil_r. reflexivity.
  - cbn [map spill_hits number fst snd].
    change (assoc r_list "primary") with (Some "primary"%string). cbv beta iota.
    destruct (H b (or_introl eq_refl)) as (E & F & G). rewrite E.
    change (String.eqb "primary" "primary") with true. cbv beta iota zeta.
    cbn [event_hits]. rewrite hit_of_primary with (i := i); auto.
    + rewrite IH.
      * rewrite <- app_assoc. reflexivity.
      * intros; apply H; simpl; auto.
      * cbn [List.length] in Hn. unfold small in *. lia.
    + unfold small in *. cbn [List.length] in Hn. lia.
Qed.

Lemma doc_virtual {B} (c : RCtx) i (o : B -> list (string * Json)) (hs : B -> list RHit) bs :
  small i -> small (List.length bs) ->
  (forall b, In b bs -> assoc (o b) "virtual_hits" = Some (JList (map virtual_object (hs b))) /\ Forall ints32 (hs b)) ->
  read_doc true c "virtual_hit" (spill_doc (map (fun b => JDict (o b)) bs) i) =
  (flat_map (fun e => map (restored i (fst e)) (hs (snd e))) (number 0 bs), None).
Proof.
  intros Hi Hn H. unfold read_doc, spill_doc.
  cbn [assoc fst snd String.eqb Ascii.eqb Bool.eqb].
  rewrite (spill_virtual c _ i o hs bs); auto. reflexivity.
Qed.
Lemma doc_primary {B} (c : RCtx) i (o : B -> list (string * Json)) (p : B -> RHit) bs :
  small i -> small (List.length bs) ->
  (forall b, In b bs -> assoc (o b) "primary" = Some (primary_object (p b)) /\ ints32 (p b) /\ physical (p b)) ->
  read_doc true c "primary" (spill_doc (map (fun b => JDict (o b)) bs) i) =
  (map (fun e => restored_primary i (fst e) (p (snd e))) (number 0 bs), None).
Proof.
  intros Hi Hn H. unfold read_doc, spill_doc.
  cbn [assoc fst snd String.eqb Ascii.eqb Bool.eqb].
  rewrite (spill_primary c _ i o p bs); auto. reflexivity.
Qed.
Lemma doc_other it (c : RCtx) fmt j : no_spill j -> read_doc it c fmt j = ([], None).
Proof.
  intros (d0 & -> & N). unfold read_doc. destruct (assoc d0 "maus_event_type") as [[ | s | | ]|]; auto.
  destruct (String.eqb_spec s "Spill"); auto. subst. congruence.
Qed.

(** A file. *)
Definition hits_in (it : bool) (c : RCtx) (fmt : string) (docs : list Json) : list RHit :=
  flat_map (fun d => fst (read_doc it c fmt d)) docs.
Definition clean (it : bool) (c : RCtx) (fmt : string) (docs : list Json) : Prop :=
  forall d, In d docs -> snd (read_doc it c fmt d) = None.

Lemma next_spill_clean it (c : RCtx) fmt docs : clean it c fmt docs ->
  match hits_in it c fmt docs with
  | [] => next_spill it c fmt docs = inl (MBadEvent, [])
  | h :: _ => exists f, next_spill it c fmt docs = inr (h, f) /\ clean it c fmt (f_docs f) /\
              h :: f_hits f ++ hits_in it c fmt (f_docs f) = hits_in it c fmt docs
  end.
Proof.
  unfold hits_in. induction docs as [|d docs IH]; intros C; [reflexivity|].
  cbn [flat_map next_spill]. pose proof (C d (or_introl eq_refl)) as E.
  assert (C' : clean it c fmt docs) by (intros x I; apply C; simpl; auto).
  destruct (read_doc it c fmt d) as [hs e]. cbn [fst snd] in *. subst e.
  destruct hs as [|h hs]; [apply IH; auto|].
  cbn [app]. eexists. split; [reflexivity|]. cbn. auto.
Qed.

Lemma take_hits_clean it (c : RCtx) fmt n : forall fuel f acc, clean it c fmt (f_docs f) ->
  (List.length (f_hits f ++ hits_in it c fmt (f_docs f)) < fuel)%nat ->
  (n < 0 \/ Z.of_nat (List.length acc) <= n)%Z ->
  exists rest, clean it c fmt rest /\
    take_hits fuel it c fmt n f acc = (inr (at_most n (acc ++ f_hits f ++ hits_in it c fmt (f_docs f))), rest) /\
    (rest = [] \/ (0 <= n /\ Z.of_nat (List.length (at_most n (acc ++ f_hits f ++ hits_in it c fmt (f_docs f)))) = n)%Z).
Proof.
  induction fuel as [|fuel IH]; intros f acc C L N; [lia|].
  cbn [take_hits].
  destruct (Z.ltb n 0 || Z.ltb (Z.of_nat (List.length acc)) n)%bool eqn:E.
  - assert (N' : (n < 0 \/ Z.of_nat (List.length acc) < n)%Z).
    { apply orb_prop in E. destruct E as [E|E]; apply Z.ltb_lt in E; auto. }
    unfold make_hit. destruct f as [hs docs]. cbn [f_hits f_docs] in *.
    destruct hs as [|h hs].
    + pose proof (next_spill_clean it c fmt docs C) as NS.
      destruct (hits_in it c fmt docs) as [|h hs] eqn:EH.
      * rewrite NS. exists []. split; [intros d []|]. split; auto. rewrite !app_nil_r. f_equal. f_equal.
        destruct N' as [N'|N']; [rewrite at_most_all; auto|rewrite at_most_short; auto; lia].
      * destruct NS as (f' & NS & C' & EQ). rewrite NS.
        destruct (IH f' (acc ++ [h])) as (rest & R1 & R2 & R3); auto.
        { pose proof (f_equal (@List.length RHit) EQ) as EL. cbn [List.length app] in EL, L. lia. }
        { rewrite app_length. cbn. lia. }
        exists rest. split; auto. cbn [app] in *.
        rewrite <- app_assoc in R2, R3. cbn [app] in R2, R3. rewrite EQ in R2, R3. auto.
    + destruct (IH (mkFactory hs docs) (acc ++ [h])) as (rest & R1 & R2 & R3); auto.
      { cbn [f_hits f_docs app List.length] in L |- *. lia. }
      { rewrite app_length. cbn. lia. }
      exists rest. split; auto. cbn [f_hits f_docs] in *.
      rewrite <- app_assoc in R2, R3. cbn [app] in R2, R3. auto.
  - apply orb_false_elim in E. destruct E as [E1 E2]. apply Z.ltb_ge in E1, E2.
    exists (f_docs f). split; auto.
    assert (EQ : Z.of_nat (List.length acc) = n) by lia.
    rewrite at_most_full by auto. split; auto.
Qed.

Lemma read_types_done it (c : RCtx) n fmts : forall docs acc,
  (forall t, In t fmts -> json_format t <> None) ->
  (docs = [] \/ (0 <= n /\ Z.of_nat (List.length acc) = n)%Z) ->
  (n < 0 \/ Z.of_nat (List.length acc) <= n)%Z ->
  read_types it c n fmts docs acc = inr acc.
Proof.
  induction fmts as [|t ts IH]; intros docs acc K D B; auto.
  cbn [read_types]. destruct (json_format t) as [fm|] eqn:E; [|destruct (K t); simpl; auto].
  destruct D as [-> | (D1 & D2)].
  - cbn [doc_hits flat_map List.length take_hits]. unfold make_hit. cbn [f_hits f_docs next_spill].
    destruct (Z.ltb n 0 || Z.ltb (Z.of_nat (List.length acc)) n)%bool;
      apply IH; auto; intros; apply K; simpl; auto.
  - cbn [take_hits].
    replace (Z.ltb n 0 || Z.ltb (Z.of_nat (List.length acc)) n)%bool with false.
    + cbn [f_docs]. apply IH; auto. intros; apply K; simpl; auto.
    + symmetry. apply orb_false_intro; apply Z.ltb_ge; lia.
Qed.

Lemma read_clean it (c : RCtx) docs n t fm ts : json_format t = Some fm -> clean it c fm docs ->
  (forall t, In t ts -> json_format t <> None) ->
  read_maus_json_file it c docs n (t :: ts) = inr (at_most n (hits_in it c fm docs)).
Proof.
  intros T C K. unfold read_maus_json_file. cbn [read_types]. rewrite T.
  destruct (take_hits_clean it c fm n (S (doc_hits it c fm docs)) (mkFactory [] docs) []) as (rest & R1 & R2 & R3); auto.
  - cbn [f_hits f_docs app List.length]. destruct (Z.ltb_spec n 0); [left|right]; lia.
  - rewrite R2. cbn [f_hits f_docs app] in *. apply read_types_done; auto.
    destruct (Z.ltb_spec n 0); [left; auto|right].
    rewrite at_most_firstn by auto. rewrite firstn_length. lia.
Qed.

(** A document that makes the reader stop. *)
Lemma next_spill_app it (c : RCtx) fmt docs d rest : clean it c fmt docs -> hits_in it c fmt docs = [] ->
  next_spill it c fmt (docs ++ d :: rest) = next_spill it c fmt (d :: rest).
Proof.
  unfold hits_in. induction docs as [|x docs IH]; intros C E; auto.
  cbn [app next_spill flat_map] in *. pose proof (C x (or_introl eq_refl)) as X.
  apply app_eq_nil in E. destruct E as [E1 E2].
  destruct (read_doc it c fmt x) as [hs e]. cbn [fst snd] in *. subst.
  apply IH; auto. intros y I. apply C. simpl. auto.
Qed.

Lemma file_virtual (c : RCtx) ds : Forall sound_doc ds ->
  clean true c "virtual_hit" (map doc_of ds) /\ hits_in true c "virtual_hit" (map doc_of ds) = virtuals ds.
Proof.
  induction ds as [|d ds IH]; intros F; [split; [intros x []|reflexivity]|].
  inversion F as [|x l Fd F']; subst. destruct (IH F') as [A B].
  assert (E : read_doc true c "virtual_hit" (doc_of d) = (virtuals [d], None)).
  { destruct d as [i evs|j]; cbn [doc_of sound_doc] in *.
    - destruct Fd as (F1 & F2 & F3). unfold event_doc.
      rewrite (doc_virtual c i (fun e => [("virtual_hits"%string, JList (map virtual_object (ev_hits e)));
         ("primary"%string, primary_object (ev_primary e))]) ev_hits evs); auto.
      + unfold virtuals. cbn [flat_map]. rewrite app_nil_r. reflexivity.
      + intros e I. split; auto. eapply Forall_forall in F3; eauto. apply F3.
    - rewrite doc_other by auto. reflexivity. }
  split.
  - intros x [<- | I]; [rewrite E; auto|apply A; auto].
  - unfold hits_in in *. cbn [map flat_map]. rewrite B, E. unfold virtuals. cbn [flat_map fst].
    rewrite app_nil_r. reflexivity.
Qed.
Lemma file_primary (c : RCtx) ds : Forall sound_doc ds ->
  clean true c "primary" (map doc_of ds) /\ hits_in true c "primary" (map doc_of ds) = primaries ds.
Proof.
  induction ds as [|d ds IH]; intros F; [split; [intros x []|reflexivity]|].
  inversion F as [|x l Fd F']; subst. destruct (IH F') as [A B].
  assert (E : read_doc true c "primary" (doc_of d) = (primaries [d], None)).
  { destruct d as [i evs|j]; cbn [doc_of sound_doc] in *.
    - destruct Fd as (F1 & F2 & F3). unfold event_doc.
      rewrite (doc_primary c i (fun e => [("virtual_hits"%string, JList (map virtual_object (ev_hits e)));
         ("primary"%string, primary_object (ev_primary e))]) ev_primary evs); auto.
      + unfold primaries. cbn [flat_map]. rewrite app_nil_r. reflexivity.
      + intros e I. split; auto. eapply Forall_forall in F3; eauto. split; apply F3.
    - rewrite doc_other by auto. reflexivity. }
  split.
  - intros x [<- | I]; [rewrite E; auto|apply A; auto].
  - unfold hits_in in *. cbn [map flat_map]. rewrite B, E. unfold primaries. cbn [flat_map fst].
    rewrite app_nil_r. reflexivity.
Qed.

(** Written and read back. *)
Lemma firsts_length l : (List.length (firsts l) <= List.length l)%nat.
Proof. apply NoDup_incl_length; [apply firsts_nodup|]. intros k. apply in_firsts. Qed.
Lemma groups_length {A} (f : A -> Z) l : (List.length (groups f l) <= List.length l)%nat.
Proof.
  unfold groups. rewrite map_length. etransitivity; [apply firsts_length|]. rewrite map_length. auto.
Qed.
Lemma group_small {A} (f : A -> Z) l g : In g (groups f l) -> (List.length g <= List.length l)%nat.
Proof.
  unfold groups. intros I. apply in_map_iff in I. destruct I as (k & <- & _).
  unfold with_key. clear. induction l; simpl; auto. destruct (Z.eqb _ _); simpl; lia.
Qed.
Lemma group_forall {A} (f : A -> Z) (P : A -> Prop) l g : In g (groups f l) -> Forall P l -> Forall P g.
Proof.
  unfold groups. intros I F. apply in_map_iff in I. destruct I as (k & <- & _).
  unfold with_key. apply Forall_forall. intros a Ia. apply filter_In in Ia.
  eapply Forall_forall in F; [|apply Ia]. auto.
Qed.

Lemma hits_in_map {B} it (c : RCtx) fmt (f : B -> Json) (g : B -> list RHit) bs :
  (forall b, In b bs -> read_doc it c fmt (f b) = (g b, None)) ->
  clean it c fmt (map f bs) /\ hits_in it c fmt (map f bs) = flat_map g bs.
Proof.
  intros H. split.
  - intros d I. apply in_map_iff in I. destruct I as (b & <- & I). rewrite H by auto. auto.
  - unfold hits_in. induction bs as [|b bs IH]; auto. cbn [map flat_map].
    rewrite H by (simpl; auto). rewrite IH by (intros; apply H; simpl; auto). reflexivity.
Qed.

Lemma round_virtual (c : RCtx) hits : Forall ints32 hits -> small (List.length hits) ->
  clean true c "virtual_hit" (virtual_spills hits) /\
  hits_in true c "virtual_hit" (virtual_spills hits) = restored_all hits.
Proof.
  intros F L. unfold virtual_spills, restored_all. apply hits_in_map.
  intros e I. apply in_number in I. destruct I as [I1 I2]. cbn [fst snd] in *.
  pose proof (groups_length event_of hits) as G1.
  pose proof (group_small event_of hits _ I1) as G2.
  pose proof (groups_length particle_of (snd e)) as G3.
  apply (doc_virtual c (fst e) (fun g => [("virtual_hits"%string, JList (map virtual_object g))]) (fun g => g)
           (groups particle_of (snd e))).
  - unfold small in *. lia.
  - unfold small in *. lia.
  - intros g Ig. split; auto. eapply group_forall; [exact Ig|]. eapply group_forall; eauto.
Qed.
Lemma round_primary (c : RCtx) hits : Forall ints32 hits -> Forall physical hits -> small (List.length hits) ->
  clean true c "primary" (primary_spills hits) /\
  hits_in true c "primary" (primary_spills hits) = restored_primaries hits.
Proof.
  intros F P L. unfold primary_spills, restored_primaries. apply hits_in_map.
  intros e I. apply in_number in I. destruct I as [I1 I2]. cbn [fst snd] in *.
  pose proof (groups_length event_of hits) as G1.
  pose proof (group_small event_of hits _ I1) as G2.
  apply (doc_primary c (fst e) (fun h => [("primary"%string, primary_object h)]) (fun h => h) (snd e)).
  - unfold small in *. lia.
  - unfold small in *. lia.
  - intros h Ih. split; auto.
    pose proof (group_forall event_of _ _ _ I1 F) as F'. pose proof (group_forall event_of _ _ _ I1 P) as P'.
    eapply Forall_forall in F', P'; eauto.
Qed.

(** What is kept. *)
Lemma restored_keeps i ev h : keeps h (restored i ev h).
Proof. split; intros v H; destruct v; try reflexivity; simpl in H; intuition discriminate. Qed.
Lemma forall2_app_map {A B} (R : A -> B -> Prop) l1 l2 m1 m2 : Forall2 R l1 m1 -> Forall2 R l2 m2 ->
  Forall2 R (l1 ++ l2) (m1 ++ m2).
Proof. apply Forall2_app. Qed.
Lemma forall2_groups (gs : list (list RHit)) (g : nat -> RHit -> RHit) :
  (forall n h, keeps h (g n h)) ->
  forall n, Forall2 keeps (concat gs) (flat_map (fun e => map (g (fst e)) (snd e)) (number n gs)).
Proof.
  intros K. induction gs as [|l gs IH]; intros n; [constructor|].
  cbn [number concat flat_map fst snd]. apply Forall2_app; [|apply IH].
  clear - K. induction l; constructor; auto.
Qed.
Lemma perm_groups2 (gs : list (list RHit)) :
  Permutation (concat (map (fun l => concat (groups particle_of l)) gs)) (concat gs).
Proof.
  induction gs as [|l gs IH]; simpl; auto. apply Permutation_app; auto. apply groups_perm.
Qed.
Lemma restored_all_keeps hits : exists hits', Permutation hits hits' /\ Forall2 keeps hits' (restored_all hits).
Proof.
  exists (concat (map (fun l => concat (groups particle_of l)) (groups event_of hits))). split.
  - symmetry. rewrite perm_groups2. apply groups_perm.
  - unfold restored_all. generalize (groups event_of hits) as gs, 0%nat at 2. intros gs.
    induction gs as [|l gs IH]; intros n; [constructor|].
    cbn [number map concat flat_map fst snd]. apply Forall2_app; [|apply IH].
    apply (forall2_groups (groups particle_of l) (fun m => restored n m)). intros. apply restored_keeps.
Qed.

(** Python 3. *)
Lemma python3_doc (c : RCtx) i h hs evs :
  read_doc false c "virtual_hit"
    (spill_doc (JDict [("virtual_hits"%string, JList (map virtual_object (h :: hs)))] :: evs) i) =
  ([], Some MAttribute).
Proof. reflexivity. Qed.

(** The reader stops. *)
Lemma take_hits_bad it (c : RCtx) fmt n docs d rest hs : clean it c fmt docs ->
  read_doc it c fmt d = (hs, Some MIndex) ->
  forall fuel hs0 acc,
  (List.length hs0 + List.length (hits_in it c fmt docs) < fuel)%nat ->
  (n < 0 \/ Z.of_nat (List.length acc) <= n)%Z ->
  fst (take_hits fuel it c fmt n (mkFactory hs0 (docs ++ d :: rest)) acc) =
  inr (at_most n (acc ++ hs0 ++ hits_in it c fmt docs)).
Proof.
  intros C D fuel. revert docs C. induction fuel as [|fuel IH]; intros docs C hs0 acc L N; [lia|].
  cbn [take_hits].
  destruct (Z.ltb n 0 || Z.ltb (Z.of_nat (List.length acc)) n)%bool eqn:E.
  - assert (N' : (n < 0 \/ Z.of_nat (List.length acc) < n)%Z).
    { apply orb_prop in E. destruct E as [E|E]; apply Z.ltb_lt in E; auto. }
    assert (NL : forall h : RHit, (n < 0 \/ Z.of_nat (List.length (acc ++ [h])) <= n)%Z).
    { intros h. rewrite app_length. cbn [List.length]. lia. }
    unfold make_hit. cbn [f_hits f_docs].
    destruct hs0 as [|h hs0].
    + cbn [app List.length] in *.
      assert (S : forall docs, clean it c fmt docs -> match hits_in it c fmt docs with
          | [] => next_spill it c fmt (docs ++ d :: rest) = inl (MBadEvent, rest)
          | h :: _ => exists hs1 docs1, next_spill it c fmt (docs ++ d :: rest) = inr (h, mkFactory hs1 (docs1 ++ d :: rest)) /\
              clean it c fmt docs1 /\ h :: hs1 ++ hits_in it c fmt docs1 = hits_in it c fmt docs
          end).
      { clear - D. unfold hits_in. induction docs as [|x docs IH]; intros C.
        - cbn. rewrite D. destruct hs; reflexivity.
        - cbn [app flat_map next_spill]. pose proof (C x (or_introl eq_refl)) as X.
          assert (C' : clean it c fmt docs) by (intros y I; apply C; simpl; auto).
          destruct (read_doc it c fmt x) as [hx e]. cbn [fst snd] in *. subst e.
          destruct hx as [|h hx]; [apply IH; auto|].
          cbn [app]. exists hx, docs. auto. }
      specialize (S docs C). destruct (hits_in it c fmt docs) as [|h hs1] eqn:EH.
      * rewrite S. cbn [fst]. rewrite app_nil_r. f_equal.
        destruct N' as [N'|N']; [rewrite at_most_all; auto|rewrite at_most_short; auto; lia].
      * destruct S as (hs2 & docs1 & NS & C' & EQ). rewrite NS.
        rewrite IH; auto.
        { rewrite <- app_assoc. cbn [app]. rewrite EQ. reflexivity. }
        { pose proof (f_equal (@List.length RHit) EQ) as EL. cbn [List.length] in EL, L.
          rewrite app_length in EL. lia. }
    + rewrite IH; auto.
      * rewrite <- app_assoc. reflexivity.
      * cbn [List.length] in L. lia.
  - apply orb_false_elim in E. destruct E as [E1 E2]. apply Z.ltb_ge in E1, E2.
    cbn [fst]. rewrite at_most_full; auto. lia.
Qed.

Lemma read_bad it (c : RCtx) docs d rest n t fm hs : json_format t = Some fm -> clean it c fm docs ->
  read_doc it c fm d = (hs, Some MIndex) ->
  read_maus_json_file it c (docs ++ d :: rest) n [t] = inr (at_most n (hits_in it c fm docs)).
Proof.
  intros T C D. unfold read_maus_json_file. cbn [read_types]. rewrite T.
  pose proof (take_hits_bad it c fm n docs d rest hs C D (S (doc_hits it c fm (docs ++ d :: rest))) [] []) as H.
  cbn [app List.length] in H. destruct (take_hits _ _ _ _ _ _ _) as [r rs]. cbn [fst] in H.
  rewrite H; auto.
  - unfold doc_hits, hits_in. rewrite flat_map_app, app_length. lia.
  - destruct (Z.ltb_spec n 0); [left|right]; lia.
Qed.

(** A primary whose energy is below its mass. *)
Lemma primary_below (c : RCtx) i (h : RHit) : ints32 h ->
  (h_dbl h Venergy * h_dbl h Venergy < mass_for (h_int h Ipid) * mass_for (h_int h Ipid))%R ->
  read_doc true c "primary" (spill_doc [JDict [("primary"%string, primary_object h)]] i) = ([], Some MIndex).
Proof.
  intros H32 LT. unfold read_doc, spill_doc.
  cbn [assoc fst snd String.eqb Ascii.eqb Bool.eqb spill_hits].
  change (assoc r_list "primary") with (Some "primary"%string).
  cbn [assoc fst snd String.eqb Ascii.eqb Bool.eqb spill_hits event_hits].
  unfold hit_of.
  assert (E : hit_from_maus true c "primary" (primary_object h) 0 =
    hit_from_dict c [("x", fl (h_dbl h Vx)); ("y", fl (h_dbl h Vy)); ("z", fl (h_dbl h Vz));
      ("px", fl (h_dbl h Vpx)); ("py", fl (h_dbl h Vpy)); ("pz", fl (h_dbl h Vpz));
      ("pid", PInt (h_int h Ipid)); ("t", fl (h_dbl h Vt)); ("energy", fl (h_dbl h Venergy));
      ("event_number", PInt (Z.of_nat 0)); ("mass", mass_val (PInt (h_int h Ipid)));
      ("charge", charge_val (PInt (h_int h Ipid)))]%string "p") by reflexivity.
  rewrite E. clear E. rewrite mass_val_for. pose proof (H32 Ipid).
  assert (I0 : int32 (Z.of_nat 0)) by (unfold int32; lia).
  unfold hit_from_dict. cbn [set_vals]. unfold fl. psets. rewrite pset_charge.
  match goal with |- context[mass_shell ?g "p"] => set (g0 := g) end.
  assert (M : mass_shell g0 "p" = (fst (set_p g0 None), MsErr EIndexError)).
  { unfold mass_shell. cbn [String.eqb Ascii.eqb Bool.eqb].
    unfold py_sqrt. destruct (Rlt_dec _ 0) as [HN|HN]; [reflexivity|].
    destruct HN.
    replace (gd g0 Venergy) with (h_dbl h Venergy) by reflexivity.
    replace (gd g0 Vmass) with (mass_for (h_int h Ipid)) by reflexivity.
    match goal with |- (?a < 0)%R => change (a < 0)%R end.
    replace ((h_dbl h Venergy - mass_for (h_int h Ipid)) * (h_dbl h Venergy + mass_for (h_int h Ipid)))%R
      with (h_dbl h Venergy * h_dbl h Venergy - mass_for (h_int h Ipid) * mass_for (h_int h Ipid))%R by rring.
    lra. }
  rewrite M. reflexivity.
Qed.

(** ROOT primaries. *)
Lemma root_primary_spec (c : RCtx) (h : RHit) spill ev : small spill -> small ev -> ints32 h -> physical h ->
  root_primary c (Z.of_nat spill) (Z.of_nat ev) (root_of h) =
  inr (hit_set_dbl (restored_primary spill ev h) Vcharge (0%R : RNum)).
Proof.
  intros Hi He H32 (PM & PS & PP & PE). unfold root_primary, root_of.
  cbn [pr_pos pr_mom pr_pid pr_energy pr_time vec3 app append].
  pose proof (H32 Ipid). pose proof (small32 _ Hi) as I1. pose proof (small32 _ He) as I2.
  cbn [set_vals]. unfold fl. psets.
  change (h_int (hit_set_dbl _ _ _) Ipid) with (h_int h Ipid).
  rewrite mass_val_for. unfold put, fl. psets. cbn [fst]. cbv zeta.
  match goal with |- context[h_dbl ?g Vcharge] => change (h_dbl g Vcharge) with (0%R : RNum) end.
  replace (trunc (0%R : RNum)) with 0%Z.
  2: { symmetry. pose proof (trunc_int 0) as T. replace (0 / 1)%R with 0%R in T by field. exact T. }
  change (zassoc pdg_pid_to_charge 0) with (Some 0%Z). cbv beta iota.
  destruct (Req_EM_T _ _) as [_|NE]; [|destruct NE; reflexivity].
  match goal with |- context[py_set (?g, c) "charge" (PInt 0)] =>
    change (py_set (g, c) "charge" (PInt 0)) with ((hit_set_dbl g Vcharge (0%R : RNum), c), @None PyErr) end.
  cbn [fst].
  match goal with |- context[mass_shell ?g "p"] =>
    destruct (shell_fixed g) as (h' & M & ->); [ | |rewrite M] end.
  - unfold on_shell in *. rewrite PM in PS. exact PS.
  - exact PP.
  - cbn [ms_err]. f_equal. apply hit_eq; intros v; destruct v; reflexivity.
Qed.

(** Tracker points. *)
Lemma sf_hit_spec (c : RCtx) spill track tp : int32 spill -> small track -> accepted_point tp ->
  sf_hit c spill (Z.of_nat track) tp = inr (tracker_hit spill track tp).
Proof.
  intros Hs Ht (A1 & A2 & A3). unfold sf_hit, sf_station.
  replace (_ || _)%bool with false.
  2: { symmetry. repeat (apply orb_false_intro); apply Z.ltb_ge; lia. }
  pose proof (small32 _ Ht).
  assert (I : int32 (90000 + tp_tracker tp * 100 + tp_station tp * 10 + tp_plane tp * 1)) by (unfold int32; lia).
  unfold tracker_hit, vec3. destruct (tp_pos tp) as [[x y] z], (tp_mom tp) as [[px py] pz].
  cbn [app append set_vals]. unfold fl. psets. f_equal.
  apply hit_eq; intros v; destruct v; try reflexivity.
  change ((90000 + tp_tracker tp * 100 + tp_station tp * 10 + tp_plane tp * 1)%Z = (90000 + 100 * tp_tracker tp + 10 * tp_station tp + tp_plane tp)%Z). lia.
Qed.
Lemma sf_points_spec (c : RCtx) spill track tps : int32 spill -> small track -> Forall accepted_point tps ->
  sf_points c spill (Z.of_nat track) tps = inr (map (tracker_hit spill track) tps).
Proof.
  intros Hs Ht F. induction F as [|tp tps A F IH]; auto. cbn [sf_points map].
  rewrite sf_hit_spec, IH; auto.
Qed.
Lemma sf_tracks_spec (c : RCtx) cut spill ts : int32 spill ->
  Forall (fun t => passes cut t = true -> Forall accepted_point (snd t)) ts ->
  forall n, small (n + List.length ts) ->
  sf_tracks c cut spill (Z.of_nat n) ts =
  inr (flat_map (fun e => if passes cut (snd e) then map (tracker_hit spill (fst e)) (snd (snd e)) else [])
         (number n ts)).
Proof.
  intros Hs F. induction F as [|[pv tps] ts A F IH]; intros n L; auto.
  cbn [List.length] in L.
  cbn [sf_tracks number flat_map fst snd] in *.
  replace (Z.of_nat n + 1)%Z with (Z.of_nat (S n)) by lia.
  rewrite IH by (unfold small in *; lia).
  unfold passes in *. cbn [fst] in *. unfold rltb.
  destruct (Rlt_dec 0 cut); cbn [andb].
  - destruct (Rlt_dec pv cut); auto. rewrite sf_points_spec; auto. unfold small in *; lia.
  - rewrite sf_points_spec; auto. unfold small in *; lia.
Qed.
