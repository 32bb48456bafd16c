From Coq Require Import Reals ZArith List Bool String Lra Lia Psatz.
From Verif Require Import Num WeightModel HitcoreModel HitcoreSpec HitPyModel HitPySpec.
Import ListNotations.
Open Scope R_scope.

Ltac toR := try match goal with |- @eq _ ?a ?b => change (@eq R a b) end.
Ltac rring := toR; ring.
Ltac rfield := toR; field.

(** ---- names of the float members ---- *)
Definition fname (d : DblVar) : string :=
  match d with
  | Vx => "x" | Vy => "y" | Vz => "z" | Vt => "t"
  | Vpx => "px" | Vpy => "py" | Vpz => "pz" | Venergy => "energy"
  | Vbx => "bx" | Vby => "by" | Vbz => "bz" | Vex => "ex" | Vey => "ey" | Vez => "ez"
  | Vsx => "sx" | Vsy => "sy" | Vsz => "sz"
  | Vpath_length => "path_length" | Vproper_time => "proper_time" | Ve_dep => "e_dep"
  | Vcharge => "charge" | Vmass => "mass" | Vlocal_weight => "local_weight"
  end.

Lemma fname_get d : assoc get_dbl_map (fname d) = Some (DStored d).
Proof. destruct d; reflexivity. Qed.
Lemma fname_set d : assoc set_dbl_map (fname d) = Some (DStored d).
Proof. destruct d; reflexivity. Qed.
Lemma fname_inj d d' : fname d = fname d' -> d = d'.
Proof.
  intros H. pose proof (fname_get d) as H1. rewrite H, fname_get in H1. congruence.
Qed.
Lemma fname_stored d : In (fname d) stored_floats.
Proof. destruct d; simpl; tauto. Qed.
Lemma stored_fname k : In k stored_floats -> exists d, k = fname d.
Proof.
  intros H. simpl in H.
  repeat (destruct H as [<-|H]; [first
    [ exists Vx; reflexivity | exists Vy; reflexivity | exists Vz; reflexivity
    | exists Vt; reflexivity | exists Vpx; reflexivity | exists Vpy; reflexivity
    | exists Vpz; reflexivity | exists Venergy; reflexivity | exists Vmass; reflexivity
    | exists Vbx; reflexivity | exists Vby; reflexivity | exists Vbz; reflexivity
    | exists Vex; reflexivity | exists Vey; reflexivity | exists Vez; reflexivity
    | exists Vsx; reflexivity | exists Vsy; reflexivity | exists Vsz; reflexivity
    | exists Vpath_length; reflexivity | exists Vproper_time; reflexivity
    | exists Ve_dep; reflexivity | exists Vcharge; reflexivity
    | exists Vlocal_weight; reflexivity ]|]).
  contradiction.
Qed.

Lemma stored_int_get (h : RHit) (c : RCtx) k : In k stored_ints ->
  exists i, forall (h : RHit) (c : RCtx), py_get (h, c) k = inr (PInt (h_int h i)).
Proof.
  intros H. simpl in H.
  repeat (destruct H as [<-|H]; [eexists; intros; reflexivity|]). contradiction.
Qed.

Lemma get_fname (s : PSt) d : py_get s (fname d) = inr (PFloat (h_dbl (fst s) d : RNum)).
Proof. unfold py_get, core_get. rewrite fname_get. reflexivity. Qed.

Lemma set_fname (s : PSt) d (x : R) :
  py_set s (fname d) (PFloat (x : RNum)) = ((sd (fst s) d x, snd s), None).
Proof. unfold py_set, core_set. rewrite fname_set. reflexivity. Qed.

Lemma sd_same (h : RHit) d x : h_dbl (sd h d x) d = x.
Proof. unfold sd, hit_set_dbl. cbn. destruct (dblvar_eq_dec d d); congruence. Qed.
Lemma sd_other (h : RHit) d d' x : d <> d' -> h_dbl (sd h d x) d' = h_dbl h d'.
Proof. unfold sd, hit_set_dbl. cbn. destruct (dblvar_eq_dec d d'); congruence. Qed.
Arguments sd : simpl never.

Lemma sd_frame (h : RHit) d x : same_except [d] h (sd h d x).
Proof.
  split; [|reflexivity]. intros v H. apply sd_other. intros ->. apply H. left; reflexivity.
Qed.

Lemma same_refl (h : RHit) : same h h.
Proof. split; reflexivity. Qed.

(** ---- C10 ---- *)
Lemma pow15_pos v : 0 < v -> pow15_over v = sqrt v.
Proof.
  intros H. unfold pow15_over. rewrite Rabs_right by lra. rfield. lra.
Qed.

Lemma tol_pos : 0 < ms_tol.
Proof. unfold ms_tol. lra. Qed.

Lemma shell_energy (h : RHit) :
  let (h', r) := mass_shell h "energy" in
  r = MsTrue /\ on_shell h' /\ 0 <= h_dbl h' Venergy /\ same_except [Venergy] h h'.
Proof.
  cbn [mass_shell String.eqb Ascii.eqb Bool.eqb]. split; auto. split; [|split].
  - unfold on_shell. rewrite sd_same.
    rewrite !sd_other by discriminate. unfold gd. rewrite sqrt_sqrt; [rring|].
    nra.
  - rewrite sd_same. apply sqrt_pos.
  - apply sd_frame.
Qed.

Definition others (h : RHit) (v : DblVar) : R :=
  match v with
  | Vpx => h_dbl h Vpy * h_dbl h Vpy + h_dbl h Vpz * h_dbl h Vpz
  | Vpy => h_dbl h Vpx * h_dbl h Vpx + h_dbl h Vpz * h_dbl h Vpz
  | _ => h_dbl h Vpx * h_dbl h Vpx + h_dbl h Vpy * h_dbl h Vpy
  end.
Definition room (h : RHit) (v : DblVar) : R :=
  h_dbl h Venergy * h_dbl h Venergy - h_dbl h Vmass * h_dbl h Vmass - others h v.

Definition is_component (v : DblVar) : Prop := v = Vpx \/ v = Vpy \/ v = Vpz.

Lemma mass_shell_component (h : RHit) v : is_component v ->
  mass_shell h (fname v) =
  if Rlt_dec ms_tol (room h v) then (sd h v (sqrt (room h v)), MsTrue) else (sd h v 0, MsFalse).
Proof.
  intros [->|[-> | ->]]; unfold mass_shell, room, others, gd; cbn [fname];
    cbn [String.eqb Ascii.eqb Bool.eqb];
    match goal with |- (if Rlt_dec _ ?a then _ else _) = (if Rlt_dec _ ?b then _ else _) =>
      replace b with a by rring end;
    (destruct (Rlt_dec ms_tol _) as [Hl|]; [|reflexivity]);
    rewrite pow15_pos by (pose proof tol_pos; lra); reflexivity.
Qed.

Lemma shell_component (h : RHit) v : is_component v ->
  let (h', r) := mass_shell h (fname v) in
  same_except [v] h h' /\
  (ms_tol < room h v -> r = MsTrue /\ on_shell h' /\ h_dbl h' v = sqrt (room h v)) /\
  (room h v <= ms_tol -> r = MsFalse /\ h_dbl h' v = 0).
Proof.
  intros Hv. rewrite (mass_shell_component h v Hv).
  destruct (Rlt_dec ms_tol (room h v)) as [Hl|Hl]; (split; [apply sd_frame|]); (split; intros Hr);
    try lra.
  - split; auto. split; [|apply sd_same].
    assert (Hs : sqrt (room h v) * sqrt (room h v) = room h v)
      by (apply sqrt_sqrt; pose proof tol_pos; lra).
    unfold on_shell.
    destruct Hv as [->|[-> | ->]]; rewrite sd_same, !sd_other by discriminate;
      rewrite Hs; unfold room, others; rring.
  - split; auto. apply sd_same.
Qed.

Lemma room_frame (h : RHit) h' v : is_component v -> same_except [v] h h' -> room h' v = room h v.
Proof.
  intros Hv [H _]. unfold room, others.
  destruct Hv as [->|[-> | ->]];
    rewrite !H by (simpl; intros [E|[]]; discriminate); reflexivity.
Qed.

Lemma same_sd (h : RHit) h' v x : same_except [v] h h' -> h_dbl h' v = x -> same h' (sd h' v x).
Proof.
  intros _ Hx. split; [|reflexivity]. intros w _.
  destruct (dblvar_eq_dec v w) as [->|Hn]; [rewrite sd_same; auto | apply sd_other; auto].
Qed.

Lemma shell_component_idem (h : RHit) v : is_component v ->
  let (h1, r1) := mass_shell h (fname v) in
  let (h2, r2) := mass_shell h1 (fname v) in
  same h1 h2 /\ r2 = r1.
Proof.
  intros Hv. rewrite (mass_shell_component h v Hv).
  assert (G : forall x, room (sd h v x) v = room h v).
  { intros x. apply room_frame; auto. apply sd_frame. }
  destruct (Rlt_dec ms_tol (room h v)) as [Hl|Hl];
    rewrite (mass_shell_component _ v Hv), G; destruct (Rlt_dec ms_tol (room h v)); try contradiction;
    (split; [|reflexivity]); eapply same_sd; try apply sd_frame; apply sd_same.
Qed.

Lemma shell_energy_idem (h : RHit) :
  let (h1, r1) := mass_shell h "energy" in
  let (h2, r2) := mass_shell h1 "energy" in
  same h1 h2 /\ r2 = r1.
Proof.
  cbn [mass_shell String.eqb Ascii.eqb Bool.eqb]. split; [|reflexivity].
  eapply same_sd; [apply sd_frame|]. unfold gd. rewrite sd_same, !sd_other by discriminate.
  reflexivity.
Qed.

(** momentum *)
Definition p2 (h : RHit) : R :=
  h_dbl h Vpx * h_dbl h Vpx + h_dbl h Vpy * h_dbl h Vpy + h_dbl h Vpz * h_dbl h Vpz.

Lemma p2_nonneg (h : RHit) : 0 <= p2 h.
Proof. unfold p2. nra. Qed.

Lemma get_p_zero (h : RHit) : get_p h = 0 <-> (h_dbl h Vpx = 0 /\ h_dbl h Vpy = 0 /\ h_dbl h Vpz = 0).
Proof.
  unfold get_p, gd. split.
  - intros H. apply sqrt_eq_0 in H; [|nra].
    repeat split; nra.
  - intros (-> & -> & ->). replace (0 * 0 + 0 * 0 + 0 * 0) with 0 by rring. apply sqrt_0.
Qed.

Lemma get_p_sq (h : RHit) : get_p h * get_p h = p2 h.
Proof. unfold get_p. apply sqrt_sqrt. apply p2_nonneg. Qed.

(** What set_p does with a real value. *)
Lemma set_p_effect (h : RHit) x :
  let (h', e) := set_p h (Some x) in
  e = None /\ same_except [Vpx; Vpy; Vpz] h h' /\ get_p h' = Rabs x /\
  (get_p h <> 0 ->
   h_dbl h' Vpx = h_dbl h Vpx * (x / get_p h) /\ h_dbl h' Vpy = h_dbl h Vpy * (x / get_p h) /\
   h_dbl h' Vpz = h_dbl h Vpz * (x / get_p h)) /\
  (get_p h = 0 -> h_dbl h' Vpx = 0 /\ h_dbl h' Vpy = 0 /\ h_dbl h' Vpz = x).
Proof.
  unfold set_p. destruct (Req_EM_T (get_p h) 0) as [Hz|Hz].
  - apply get_p_zero in Hz as Hzz. destruct Hzz as (Z1 & Z2 & Z3).
    assert (Hp1 : get_p (sd h Vpz 1) = 1).
    { unfold get_p, gd. rewrite sd_same, !sd_other by discriminate. rewrite Z1, Z2.
      replace (0 * 0 + 0 * 0 + 1 * 1) with 1 by rring. apply sqrt_1. }
    rewrite Hp1. unfold gd.
    set (h' := sd _ _ _).
    assert (A1 : h_dbl h' Vpx = 0).
    { unfold h'. rewrite sd_other by discriminate. rewrite sd_other by discriminate.
      rewrite sd_same, sd_other by discriminate. rewrite Z1. rring. }
    assert (A2 : h_dbl h' Vpy = 0).
    { unfold h'. rewrite sd_other by discriminate. rewrite sd_same.
      rewrite !sd_other by discriminate. rewrite Z2. rring. }
    assert (A3 : h_dbl h' Vpz = x).
    { unfold h'. rewrite sd_same. rewrite !sd_other by discriminate. rewrite sd_same. rfield. }
    repeat split; auto; try contradiction.
    + intros v Hv. unfold h'. rewrite !sd_other; auto; intros <-; apply Hv; simpl; tauto.
    + unfold get_p, gd. rewrite A1, A2, A3.
      replace (0 * 0 + 0 * 0 + x * x) with (Rsqr x) by (unfold Rsqr; rring). apply sqrt_Rsqr_abs.
  - unfold gd. set (k := x / get_p h). set (h' := sd _ _ _).
    assert (A1 : h_dbl h' Vpx = h_dbl h Vpx * k).
    { unfold h'. rewrite sd_other by discriminate. rewrite sd_other by discriminate.
      rewrite sd_same. reflexivity. }
    assert (A2 : h_dbl h' Vpy = h_dbl h Vpy * k).
    { unfold h'. rewrite sd_other by discriminate. rewrite sd_same.
      rewrite !sd_other by discriminate. reflexivity. }
    assert (A3 : h_dbl h' Vpz = h_dbl h Vpz * k).
    { unfold h'. rewrite sd_same. rewrite !sd_other by discriminate. reflexivity. }
    repeat split; auto; try contradiction.
    + intros v Hv. unfold h'. rewrite !sd_other; auto; intros <-; apply Hv; simpl; tauto.
    + unfold get_p at 1. unfold gd. rewrite A1, A2, A3.
      replace (_ + _ + _) with (Rsqr x).
      * apply sqrt_Rsqr_abs.
      * unfold k, Rsqr. pose proof (get_p_sq h) as Hs. unfold p2 in Hs.
        assert (Hk : x / get_p h * (x / get_p h) * (get_p h * get_p h) = x * x) by (rfield; auto).
        rewrite Hs in Hk. rewrite <- Hk. rring.
Qed.

Lemma shell_p_eq (h : RHit) :
  h_dbl h Vmass * h_dbl h Vmass <= h_dbl h Venergy * h_dbl h Venergy ->
  mass_shell h "p" =
  (fst (set_p h (Some (sqrt (h_dbl h Venergy * h_dbl h Venergy - h_dbl h Vmass * h_dbl h Vmass)))),
   MsTrue).
Proof.
  intros Hm. cbn [mass_shell String.eqb Ascii.eqb Bool.eqb]. unfold gd, py_sqrt.
  replace ((h_dbl h Venergy - h_dbl h Vmass) * (h_dbl h Venergy + h_dbl h Vmass))
    with (h_dbl h Venergy * h_dbl h Venergy - h_dbl h Vmass * h_dbl h Vmass) by rring.
  destruct (Rlt_dec _ 0); [lra|].
  pose proof (set_p_effect h (sqrt (h_dbl h Venergy * h_dbl h Venergy - h_dbl h Vmass * h_dbl h Vmass))) as H.
  destruct (set_p h _) as [h' e]. destruct H as [-> _]. reflexivity.
Qed.

Lemma shell_p (h : RHit) :
  h_dbl h Vmass * h_dbl h Vmass <= h_dbl h Venergy * h_dbl h Venergy ->
  let (h', r) := mass_shell h "p" in
  r = MsTrue /\ on_shell h' /\ same_except [Vpx; Vpy; Vpz] h h' /\
  exists k, 0 <= k /\
    (get_p h <> 0 -> h_dbl h' Vpx = k * h_dbl h Vpx /\ h_dbl h' Vpy = k * h_dbl h Vpy /\
                     h_dbl h' Vpz = k * h_dbl h Vpz) /\
    (get_p h = 0 -> h_dbl h' Vpx = 0 /\ h_dbl h' Vpy = 0 /\ h_dbl h' Vpz = k).
Proof.
  intros Hm. rewrite (shell_p_eq h Hm).
  set (x := sqrt _).
  pose proof (set_p_effect h x) as H. destruct (set_p h (Some x)) as [h' e].
  destruct H as (H1 & H2 & H3 & H4 & H5). simpl.
  assert (Hx : 0 <= x) by apply sqrt_pos.
  split; auto. split; [|split; auto].
  - unfold on_shell. pose proof (get_p_sq h') as Hs. rewrite H3, Rabs_right in Hs by lra.
    unfold p2 in Hs. rewrite <- Hs. unfold x. rewrite sqrt_sqrt by lra.
    destruct H2 as [H2 _]. rewrite !H2 by (simpl; intros [E|[E|[E|[]]]]; discriminate). rring.
  - destruct (Req_EM_T (get_p h) 0) as [Hz|Hz].
    + exists x. split; auto. split; [contradiction|auto].
    + exists (x / get_p h). split.
      * apply Rmult_le_pos; auto. apply Rlt_le, Rinv_0_lt_compat.
        assert (0 <= get_p h) by apply sqrt_pos. lra.
      * split; [|contradiction]. intros _. destruct (H4 Hz) as (E1 & E2 & E3).
        rewrite E1, E2, E3. repeat split; rring.
Qed.

Lemma shell_p_idem (h : RHit) :
  h_dbl h Vmass * h_dbl h Vmass <= h_dbl h Venergy * h_dbl h Venergy ->
  let (h1, r1) := mass_shell h "p" in
  let (h2, r2) := mass_shell h1 "p" in
  same h1 h2 /\ r2 = r1.
Proof.
  intros Hm. pose proof (shell_p_eq h Hm) as E1. rewrite E1.
  set (x := sqrt _) in *.
  pose proof (set_p_effect h x) as H. destruct (set_p h (Some x)) as [h1 e].
  destruct H as (H1 & H2 & H3 & H4 & H5). simpl fst.
  destruct H2 as [H2 H2i].
  assert (Ee : h_dbl h1 Venergy = h_dbl h Venergy)
    by (apply H2; simpl; intros [E|[E|[E|[]]]]; discriminate).
  assert (Em : h_dbl h1 Vmass = h_dbl h Vmass)
    by (apply H2; simpl; intros [E|[E|[E|[]]]]; discriminate).
  rewrite (shell_p_eq h1) by (rewrite Ee, Em; auto).
  rewrite Ee, Em. fold x.
  pose proof (set_p_effect h1 x) as G. destruct (set_p h1 (Some x)) as [h2 e2].
  destruct G as (G1 & G2 & G3 & G4 & G5). simpl fst. split; auto.
  assert (Hx : 0 <= x) by apply sqrt_pos.
  rewrite Rabs_right in H3 by lra.
  destruct G2 as [G2 G2i]. split; auto. intros v _.
  assert (Hv : In v [Vpx; Vpy; Vpz] \/ ~ In v [Vpx; Vpy; Vpz]).
  { destruct (in_dec dblvar_eq_dec v [Vpx; Vpy; Vpz]); auto. }
  destruct Hv as [Hv|Hv]; [|apply G2; auto].
  destruct (Req_EM_T (get_p h1) 0) as [Hz|Hz].
  - destruct (G5 Hz) as (A1 & A2 & A3). apply get_p_zero in Hz as (B1 & B2 & B3).
    rewrite H3 in *.
    assert (x = 0).
    { rewrite <- H3. apply get_p_zero. auto. }
    destruct Hv as [<-|[<-|[<-|[]]]]; congruence.
  - destruct (G4 Hz) as (A1 & A2 & A3). rewrite H3 in *.
    destruct Hv as [<-|[<-|[<-|[]]]]; [rewrite A1|rewrite A2|rewrite A3]; rfield; auto.
Qed.

(** ---- C12 ---- *)
Lemma derived_set_get_gen k s v :
  assoc set_dbl_map k = None -> assoc set_int_map k = None ->
  py_set s k v = match derived_set (fst s) k v with
                 | Some (h', e) => ((h', snd s), e)
                 | None => (s, Some EIndexError)
                 end.
Proof.
  intros H1 H2. destruct s as [h c]. unfold py_set, core_set. rewrite H1, H2. reflexivity.
Qed.

Lemma set_p_get (s : PSt) (x : R) :
  let (s', e) := py_set s "p" (PFloat (x : RNum)) in
  e = None /\ snd s' = snd s /\ reads s' "p" (Rabs x) /\
  same_except [Vpx; Vpy; Vpz] (fst s) (fst s') /\
  (p2 (fst s) <> 0 -> exists k, 
     (0 <= x -> 0 <= k) /\
     h_dbl (fst s') Vpx = k * h_dbl (fst s) Vpx /\ h_dbl (fst s') Vpy = k * h_dbl (fst s) Vpy /\
     h_dbl (fst s') Vpz = k * h_dbl (fst s) Vpz) /\
  (p2 (fst s) = 0 -> h_dbl (fst s') Vpx = 0 /\ h_dbl (fst s') Vpy = 0 /\
                     h_dbl (fst s') Vpz = x).
Proof.
  rewrite derived_set_get_gen by reflexivity. destruct s as [h c]. cbn [fst snd].
  change (derived_set h "p" (PFloat (x : RNum))) with (Some (set_p h (Some x))).
  pose proof (set_p_effect h x) as H. destruct (set_p h (Some x)) as [h' e].
  destruct H as (H1 & H2 & H3 & H4 & H5). cbn [fst snd].
  split; [exact H1|]. split; [reflexivity|]. split; [|split; [exact H2|]].
  - unfold reads. rewrite <- H3. reflexivity.
  - pose proof (get_p_sq h) as Hs. split.
    + intros Hp. assert (Hz : get_p h <> 0) by (intros E; rewrite E in Hs; apply Hp; lra).
      exists (x / get_p h). split.
      * intros Hx. apply Rmult_le_pos; auto. apply Rlt_le, Rinv_0_lt_compat.
        assert (0 <= get_p h) by apply sqrt_pos. lra.
      * destruct (H4 Hz) as (E1 & E2 & E3). rewrite E1, E2, E3. repeat split; rring.
    + intros Hp. apply H5. assert (0 <= get_p h) by apply sqrt_pos. rewrite Hp in Hs. nra.
Qed.

Lemma set_slope_get (k : string) (v : DblVar) s (x : R) :
  (k = "x'"%string /\ v = Vpx) \/ (k = "y'"%string /\ v = Vpy) ->
  let (s', e) := py_set s k (PFloat (x : RNum)) in
  snd s' = snd s /\
  (tol9 <= Rabs (h_dbl (fst s) Vpz) ->
     e = None /\ reads s' k x /\ same_except [v] (fst s) (fst s')) /\
  (Rabs (h_dbl (fst s) Vpz) < tol9 -> e = Some EFloatingPoint /\ s' = s).
Proof.
  destruct s as [h c].
  assert (Ht : 0 < tol9) by (unfold tol9; lra).
  intros [[-> ->]|[-> ->]]; rewrite derived_set_get_gen by reflexivity; cbn [fst snd];
  [ change (derived_set h "x'" (PFloat (x : RNum))) with (Some (set_xP h x)); unfold set_xP
  | change (derived_set h "y'" (PFloat (x : RNum))) with (Some (set_yP h x)); unfold set_yP ];
  unfold gd; (destruct (Rlt_dec (Rabs (h_dbl h Vpz)) tol9) as [Hl|Hl]);
  cbn [fst snd]; (split; [reflexivity|]); (split; intros Hh; try lra).
  - auto.
  - split; auto. split; [|apply sd_frame].
    unfold reads, py_get. cbn [fst snd].
    change (core_get c (sd h Vpx (x * h_dbl h Vpz)) "x'") with (@None RVal).
    change (derived_get (sd h Vpx (x * h_dbl h Vpz)) "x'") with
      (Some (py_div (x * h_dbl h Vpz) (h_dbl h Vpz))).
    unfold py_div. destruct (Req_EM_T (h_dbl h Vpz) 0) as [E|E].
    + rewrite E, Rabs_R0 in Hh. lra.
    + cbv iota beta. do 2 f_equal. rfield. auto.
  - auto.
  - split; auto. split; [|apply sd_frame].
    unfold reads, py_get. cbn [fst snd].
    change (core_get c (sd h Vpy (x * h_dbl h Vpz)) "y'") with (@None RVal).
    change (derived_get (sd h Vpy (x * h_dbl h Vpz)) "y'") with
      (Some (py_div (x * h_dbl h Vpz) (h_dbl h Vpz))).
    unfold py_div. destruct (Req_EM_T (h_dbl h Vpz) 0) as [E|E].
    + rewrite E, Rabs_R0 in Hh. lra.
    + cbv iota beta. do 2 f_equal. rfield. auto.
Qed.

Lemma set_tP_get (s : PSt) (x : R) :
  let (s', e) := py_set s "t'" (PFloat (x : RNum)) in
  snd s' = snd s /\
  (tol9 <= Rabs (h_dbl (fst s) Vpz) ->
     reads s' "t'" x /\ same_except [Venergy; Vpz] (fst s) (fst s') /\
     h_dbl (fst s') Vpz = Rabs (h_dbl (fst s) Vpz) /\
     (h_dbl (fst s) Vmass <= - x * Rabs (h_dbl (fst s) Vpz) -> e = None) /\
     (- x * Rabs (h_dbl (fst s) Vpz) < h_dbl (fst s) Vmass -> e = Some EFloatingPoint)) /\
  (Rabs (h_dbl (fst s) Vpz) < tol9 -> e = Some EFloatingPoint /\ s' = s).
Proof.
  destruct s as [h c].
  assert (Ht : 0 < tol9) by (unfold tol9; lra).
  rewrite derived_set_get_gen by reflexivity; cbn [fst snd].
  change (derived_set h "t'" (PFloat (x : RNum))) with (Some (set_tP h x)); unfold set_tP.
  unfold gd. destruct (Rlt_dec (Rabs (h_dbl h Vpz)) tol9) as [Hl|Hl].
  { cbn [fst snd]. split; [reflexivity|]. split; intros; try lra. auto. }
  set (h1 := sd h Venergy (- x * h_dbl h Vpz)).
  assert (A1 : h_dbl h1 Vpz = h_dbl h Vpz) by (apply sd_other; discriminate).
  rewrite A1.
  destruct (Rlt_dec (h_dbl h Vpz) 0) as [Hneg|Hneg].
  - set (h2 := sd h1 Venergy (h_dbl h1 Venergy * -1)).
    set (h3 := sd h2 Vpz (h_dbl h2 Vpz * -1)).
    assert (B1 : h_dbl h3 Vpz = - h_dbl h Vpz).
    { unfold h3. rewrite sd_same. unfold h2. rewrite sd_other by discriminate. rewrite A1. rring. }
    assert (B2 : h_dbl h3 Venergy = x * h_dbl h Vpz).
    { unfold h3. rewrite sd_other by discriminate. unfold h2. rewrite sd_same.
      unfold h1. rewrite sd_same. rring. }
    assert (B3 : h_dbl h3 Vmass = h_dbl h Vmass).
    { unfold h3, h2, h1. rewrite !sd_other by discriminate. reflexivity. }
    assert (Hab : Rabs (h_dbl h Vpz) = - h_dbl h Vpz) by (apply Rabs_left; auto).
    assert (G : (if Rlt_dec (h_dbl h3 Venergy) (h_dbl h3 Vmass)
                 then (h3, Some EFloatingPoint) else (h3, None))
                = (h3, if Rlt_dec (h_dbl h3 Venergy) (h_dbl h3 Vmass)
                       then Some EFloatingPoint else None)).
    { destruct (Rlt_dec _ _); reflexivity. }
    rewrite G. cbn [fst snd]. split; [reflexivity|]. split; intros Hh; [|lra].
    split; [|split; [|split; [|split]]].
    + unfold reads, py_get. cbn [fst snd]. change (core_get c h3 "t'") with (@None RVal).
      change (derived_get h3 "t'") with (Some (py_div (- h_dbl h3 Venergy) (h_dbl h3 Vpz))).
      rewrite B1, B2. unfold py_div. destruct (Req_EM_T (- h_dbl h Vpz) 0); [lra|].
      cbv iota beta. do 2 f_equal. rfield. lra.
    + split; [|reflexivity]. intros v Hv. unfold h3, h2, h1.
      rewrite !sd_other; auto; intros <-; apply Hv; simpl; tauto.
    + rewrite B1. auto.
    + intros Hm. rewrite Hab in Hm. destruct (Rlt_dec _ _) as [E|]; auto.
      rewrite B2, B3 in E. lra.
    + intros Hm. rewrite Hab in Hm. destruct (Rlt_dec _ _) as [|E]; auto.
      rewrite B2, B3 in E. lra.
  - assert (B2 : h_dbl h1 Venergy = - x * h_dbl h Vpz) by (unfold h1; rewrite sd_same; auto).
    assert (B3 : h_dbl h1 Vmass = h_dbl h Vmass) by (apply sd_other; discriminate).
    assert (Hab : Rabs (h_dbl h Vpz) = h_dbl h Vpz) by (apply Rabs_right; lra).
    assert (G : (if Rlt_dec (h_dbl h1 Venergy) (h_dbl h1 Vmass)
                 then (h1, Some EFloatingPoint) else (h1, None))
                = (h1, if Rlt_dec (h_dbl h1 Venergy) (h_dbl h1 Vmass)
                       then Some EFloatingPoint else None)).
    { destruct (Rlt_dec _ _); reflexivity. }
    rewrite G. cbn [fst snd]. split; [reflexivity|]. split; intros Hh; [|lra].
    split; [|split; [|split; [|split]]].
    + unfold reads, py_get. cbn [fst snd]. change (core_get c h1 "t'") with (@None RVal).
      change (derived_get h1 "t'") with (Some (py_div (- h_dbl h1 Venergy) (h_dbl h1 Vpz))).
      rewrite A1, B2. unfold py_div. rewrite Hab in Hh.
      destruct (Req_EM_T (h_dbl h Vpz) 0); [lra|].
      cbv iota beta. do 2 f_equal. rfield. lra.
    + split; [|reflexivity]. intros v Hv. unfold h1.
      rewrite !sd_other; auto; intros <-; apply Hv; simpl; tauto.
    + rewrite A1. auto.
    + intros Hm. rewrite Hab in Hm. destruct (Rlt_dec _ _) as [E|]; auto.
      rewrite B2, B3 in E. lra.
    + intros Hm. rewrite Hab in Hm. destruct (Rlt_dec _ _) as [|E]; auto.
      rewrite B2, B3 in E. lra.
Qed.

Lemma set_ct_get (s : PSt) (x : R) :
  let (s', e) := py_set s "ct" (PFloat (x : RNum)) in
  e = None /\ snd s' = snd s /\ reads s' "ct" x /\ same_except [Vt] (fst s) (fst s').
Proof.
  rewrite derived_set_get_gen by reflexivity. destruct s as [h c].
  change (derived_set (fst (h, c)) "ct" (PFloat (x : RNum)))
    with (Some (sd h Vt (x / c_light), @None PyErr)).
  cbn [fst snd]. repeat split.
  - unfold reads, py_get. cbn [fst snd].
    change (core_get c (sd h Vt (x / c_light)) "ct") with (@None RVal).
    change (derived_get (sd h Vt (x / c_light)) "ct") with
      (Some (@inr PyErr R (x / c_light * c_light))).
    cbv iota beta. do 2 f_equal. unfold c_light. rfield.
  - intros v Hv. apply sd_frame. auto.
Qed.

Lemma set_ek_get (s : PSt) (x : R) :
  let (s', e) := py_set s "kinetic_energy" (PFloat (x : RNum)) in
  e = None /\ snd s' = snd s /\ reads s' "kinetic_energy" x /\
  same_except [Venergy] (fst s) (fst s').
Proof.
  rewrite derived_set_get_gen by reflexivity. destruct s as [h c].
  change (derived_set (fst (h, c)) "kinetic_energy" (PFloat (x : RNum)))
    with (Some (sd h Venergy (x + h_dbl h Vmass), @None PyErr)).
  cbn [fst snd]. repeat split.
  - unfold reads, py_get. cbn [fst snd].
    change (core_get c (sd h Venergy (x + h_dbl h Vmass)) "kinetic_energy") with (@None RVal).
    change (derived_get (sd h Venergy (x + h_dbl h Vmass)) "kinetic_energy") with
      (Some (@inr PyErr R (x + h_dbl h Vmass - h_dbl h Vmass))).
    cbv iota beta. do 2 f_equal. rring.
  - intros v Hv. apply sd_frame. auto.
Qed.

(** ---- C13 ---- *)
Lemma translate_step (s : PSt) d (x : R) r :
  translate_loop s ((fname d, PFloat (x : RNum)) :: r) =
  translate_loop (sd (fst s) d (x + h_dbl (fst s) d), snd s) r.
Proof.
  cbn [translate_loop]. rewrite get_fname. cbn [py_add as_real]. rewrite set_fname. reflexivity.
Qed.

Lemma entry_notin d k : ~ In k (map fst d) -> entry d k = 0.
Proof.
  induction d as [|[k' x] d IH]; simpl; auto. intros H.
  destruct (String.eqb_spec k' k); [tauto|]. apply IH. tauto.
Qed.

Lemma translate_loop_effect d : forall s, float_dict d ->
  let (s', e) := translate_loop s (floats d) in
  e = None /\ snd s' = snd s /\ (forall i, h_int (fst s') i = h_int (fst s) i) /\
  forall v, h_dbl (fst s') v = h_dbl (fst s) v + entry d (fname v).
Proof.
  induction d as [|[k x] d IH]; intros s [Hnd Hin].
  - simpl. repeat split; auto. intros; lra.
  - destruct (stored_fname k) as [dv ->]; [apply Hin; left; reflexivity|].
    change (floats ((fname dv, x) :: d)) with ((fname dv, PFloat (x : RNum)) :: floats d).
    rewrite translate_step.
    specialize (IH (sd (fst s) dv (x + h_dbl (fst s) dv), snd s)).
    match goal with |- let (_, _) := ?t in _ => destruct t as [s' e] end.
    destruct IH as (H1 & H2 & H3 & H4).
    { split; [inversion Hnd; auto|]. intros k Hk. apply Hin. right; auto. }
    cbn [fst snd] in *. repeat split; auto.
    + intros v. rewrite H4. simpl entry. inversion Hnd; subst.
      destruct (String.eqb_spec (fname dv) (fname v)) as [E|E].
      * apply fname_inj in E. subst v. rewrite sd_same, entry_notin by auto. lra.
      * rewrite sd_other by congruence. reflexivity.
Qed.

Lemma translate_nil (s : PSt) d : translate s (floats d) "" = translate_loop s (floats d) \/
  exists e, snd (translate_loop s (floats d)) = Some e.
Proof.
  unfold translate. destruct (translate_loop s (floats d)) as [[h c] [e|]]; simpl; eauto.
Qed.

Lemma translate_effect (s : PSt) d : float_dict d ->
  let (s', e) := translate s (floats d) "" in
  e = None /\ snd s' = snd s /\ (forall i, h_int (fst s') i = h_int (fst s) i) /\
  forall v, h_dbl (fst s') v = h_dbl (fst s) v + entry d (fname v).
Proof.
  intros H. pose proof (translate_loop_effect d s H) as G. unfold translate.
  destruct (translate_loop s (floats d)) as [[h c] e]. destruct G as (-> & G).
  simpl in *. auto.
Qed.

Lemma reads_same_intro (s s' : PSt) :
  (forall v, h_dbl (fst s') v = h_dbl (fst s) v) -> (forall i, h_int (fst s') i = h_int (fst s) i) ->
  reads_same s s'.
Proof.
  intros H1 H2 k [Hk|Hk].
  - destruct (stored_fname k Hk) as [d ->]. rewrite !get_fname, H1. reflexivity.
  - destruct (stored_int_get (fst s) (snd s) k Hk) as [i Hi].
    destruct s as [h c], s' as [h' c']. rewrite !Hi. simpl in *. rewrite H2. reflexivity.
Qed.

Lemma translate_reads (s : PSt) d : float_dict d ->
  let (s', e) := translate s (floats d) "" in
  e = None /\ snd s' = snd s /\
  (forall k x, In k stored_floats -> reads s k x -> reads s' k (x + entry d k)) /\
  (forall k, In k stored_ints -> py_get s' k = py_get s k).
Proof.
  intros H. pose proof (translate_effect s d H) as G.
  destruct (translate s (floats d) "") as [s' e]. destruct G as (G1 & G2 & G3 & G4).
  repeat split; auto.
  - intros k x Hk. destruct (stored_fname k Hk) as [v ->]. unfold reads. rewrite !get_fname.
    intros E. injection E as E. rewrite G4. do 2 f_equal. simpl in *. congruence.
  - intros k Hk. destruct (stored_int_get (fst s) (snd s) k Hk) as [i Hi].
    destruct s as [h c], s' as [h' c']. rewrite !Hi. simpl in *. rewrite G3. reflexivity.
Qed.

Lemma translate_compose (s : PSt) d1 d2 d12 : float_dict d1 -> float_dict d2 -> float_dict d12 ->
  (forall k, entry d12 k = entry d1 k + entry d2 k) ->
  let s1 := fst (translate s (floats d1) "") in
  let s2 := fst (translate s1 (floats d2) "") in
  reads_same (fst (translate s (floats d12) "")) s2.
Proof.
  intros H1 H2 H12 He.
  pose proof (translate_effect s d1 H1) as G1.
  destruct (translate s (floats d1) "") as [s1 e1]. destruct G1 as (_ & _ & A3 & A4).
  cbn [fst]. cbv zeta.
  pose proof (translate_effect s1 d2 H2) as G2.
  destruct (translate s1 (floats d2) "") as [s2 e2]. destruct G2 as (_ & _ & B3 & B4).
  pose proof (translate_effect s d12 H12) as G3.
  destruct (translate s (floats d12) "") as [s3 e3]. destruct G3 as (_ & _ & C3 & C4).
  cbn [fst]. apply reads_same_intro.
  - intros v. rewrite B4, A4, C4, He. rring.
  - intros i. rewrite B3, A3, C3. reflexivity.
Qed.

Lemma translate_inverse (s : PSt) d1 d2 : float_dict d1 -> float_dict d2 ->
  (forall k, entry d2 k = - entry d1 k) ->
  let s1 := fst (translate s (floats d1) "") in
  let s2 := fst (translate s1 (floats d2) "") in
  reads_same s s2.
Proof.
  intros H1 H2 He.
  pose proof (translate_effect s d1 H1) as G1.
  destruct (translate s (floats d1) "") as [s1 e1]. destruct G1 as (_ & _ & A3 & A4).
  cbn [fst]. cbv zeta.
  pose proof (translate_effect s1 d2 H2) as G2.
  destruct (translate s1 (floats d2) "") as [s2 e2]. destruct G2 as (_ & _ & B3 & B4).
  cbn [fst]. apply reads_same_intro.
  - intros v. rewrite B4, A4, He. rring.
  - intros i. rewrite B3, A3. reflexivity.
Qed.

(** ---- C14 ---- *)
Lemma dget_entry d k : dget d k = entry d k.
Proof.
  unfold dget. induction d as [|[k' x] d IH]; simpl; auto.
  destruct (String.eqb k' k); auto.
Qed.

Lemma get_vector_floats (s : PSt) ks : (forall k, In k ks -> In k stored_floats) ->
  exists vs, get_vector s ks = inr vs /\ List.length vs = List.length ks /\
    forall i d, nth_error ks i = Some (fname d) -> nth i vs 0 = h_dbl (fst s) d.
Proof.
  induction ks as [|k ks IH]; intros H.
  - exists []. repeat split; auto. intros [|i] d E; discriminate.
  - destruct (stored_fname k) as [v ->]; [apply H; left; auto|].
    destruct IH as (vs & E & Hl & Hn); [intros; apply H; right; auto|].
    exists (h_dbl (fst s) v :: vs). cbn [get_vector]. rewrite get_fname. cbn [as_real].
    rewrite E. repeat split; simpl; auto.
    intros [|i] d Ed; simpl in *.
    + injection Ed as Ed. apply fname_inj in Ed. congruence.
    + apply Hn. auto.
Qed.

Lemma abelian_store_effect t o ks : forall s v,
  NoDup ks -> (forall k, In k ks -> In k stored_floats) -> (List.length ks <= List.length v)%nat ->
  let (s', e) := abelian_store s ks v t o in
  e = None /\ snd s' = snd s /\ (forall i, h_int (fst s') i = h_int (fst s) i) /\
  (forall d, ~ In (fname d) ks -> h_dbl (fst s') d = h_dbl (fst s) d) /\
  (forall i d, nth_error ks i = Some (fname d) ->
     h_dbl (fst s') d = nth i v 0 + dget t (fname d) + dget o (fname d)).
Proof.
  induction ks as [|k ks IH]; intros s v Hnd Hin Hlen.
  - simpl. repeat split; auto. intros [|i] d E; discriminate.
  - destruct v as [|x v]; [simpl in Hlen; lia|].
    destruct (stored_fname k) as [dv ->]; [apply Hin; left; auto|].
    cbn [abelian_store]. rewrite set_fname.
    inversion Hnd; subst.
    specialize (IH (sd (fst s) dv (x + dget t (fname dv) + dget o (fname dv)), snd s) v).
    match goal with |- let (_, _) := ?t in _ => destruct t as [s' e] end.
    destruct IH as (A1 & A2 & A3 & A4 & A5); auto.
    { intros; apply Hin; right; auto. } { simpl in Hlen; lia. }
    cbn [fst snd] in *. repeat split; auto.
    + intros d Hd. rewrite A4 by (intros Hd'; apply Hd; right; auto).
      apply sd_other. intros ->. apply Hd. left; auto.
    + intros [|i] d Ed; simpl in *.
      * injection Ed as Ed. apply fname_inj in Ed. subst d. rewrite A4 by auto. apply sd_same.
      * apply A5; auto.
Qed.

Lemma dot_sum a : forall b n, List.length a = n -> List.length b = n ->
  dot a b = sum_n n (fun j => nth j a 0 * nth j b 0).
Proof.
  assert (Hshift : forall n f, sum_n (S n) f = f 0%nat + sum_n n (fun j => f (S j))).
  { induction n; intros f; simpl in *; [rring|]. rewrite IHn. rring. }
  induction a as [|x a IH]; intros b n Ha Hb.
  - simpl in Ha. subst n. destruct b; [reflexivity|discriminate].
  - destruct b as [|y b]; [subst n; discriminate|]. destruct n; [discriminate|].
    rewrite Hshift. simpl dot. simpl nth. rewrite (IH b n); simpl in *; try lia. reflexivity.
Qed.

Lemma sum_n_ext n f g : (forall i, (i < n)%nat -> f i = g i) -> sum_n n f = sum_n n g.
Proof.
  induction n; simpl; auto. intros H. rewrite IHn by (intros; apply H; lia).
  rewrite H by lia. reflexivity.
Qed.

Lemma sum_n_plus n f g : sum_n n (fun i => f i + g i) = sum_n n f + sum_n n g.
Proof. induction n; simpl; [rring|]. rewrite IHn. rring. Qed.
Lemma sum_n_scal n c f : sum_n n (fun i => c * f i) = c * sum_n n f.
Proof. induction n; simpl; [rring|]. rewrite IHn. rring. Qed.
Lemma sum_n_0 n : sum_n n (fun _ => 0) = 0.
Proof. induction n; simpl; [rring|]. rewrite IHn. rring. Qed.
Lemma sum_n_swap n m f :
  sum_n n (fun i => sum_n m (fun j => f i j)) = sum_n m (fun j => sum_n n (fun i => f i j)).
Proof.
  induction n; simpl.
  - rewrite sum_n_0. reflexivity.
  - rewrite IHn, <- sum_n_plus. reflexivity.
Qed.
Lemma sum_n_delta n i x : (i < n)%nat ->
  sum_n n (fun j => (if Nat.eqb i j then 1 else 0) * x j) = x i.
Proof.
  induction n; intros H; [lia|]. simpl.
  destruct (Nat.eq_dec i n) as [->|Hn].
  - rewrite Nat.eqb_refl.
    rewrite (sum_n_ext n _ (fun _ => 0)); [rewrite sum_n_0; rring|].
    intros j Hj. destruct (Nat.eqb_spec n j); [lia|rring].
  - rewrite IHn by lia. destruct (Nat.eqb_spec i n); [lia|rring].
Qed.

(** The variables named by ks, as numbers. *)
Definition vec (s : PSt) (ks : list string) (i : nat) : R :=
  match nth_error ks i with
  | Some k => match py_get s k with inr (PFloat x) => x | _ => 0 end
  | None => 0
  end.

Lemma vec_fname (s : PSt) ks i d : nth_error ks i = Some (fname d) -> vec s ks i = h_dbl (fst s) d.
Proof. intros E. unfold vec. rewrite E, get_fname. reflexivity. Qed.

Lemma nth_error_fname ks i : (forall k, In k ks -> In k stored_floats) -> (i < List.length ks)%nat ->
  exists d, nth_error ks i = Some (fname d).
Proof.
  intros H Hi. destruct (nth_error ks i) as [k|] eqn:E.
  - destruct (stored_fname k) as [d ->]; [apply H; eapply nth_error_In; eauto|]. eauto.
  - apply nth_error_None in E. lia.
Qed.

Lemma abelian_effect (s : PSt) ks m t o :
  NoDup ks -> (forall k, In k ks -> In k stored_floats) -> square (List.length ks) m ->
  let (s', e) := abelian s ks m t o "" in
  e = None /\ snd s' = snd s /\ (forall i, h_int (fst s') i = h_int (fst s) i) /\
  (forall d, ~ In (fname d) ks -> h_dbl (fst s') d = h_dbl (fst s) d) /\
  (forall i d, nth_error ks i = Some (fname d) ->
     h_dbl (fst s') d =
     sum_n (List.length ks) (fun j => ent m i j * (vec s ks j - entry o (nth j ks ""%string)))
     + entry t (fname d) + entry o (fname d)).
Proof.
  intros Hnd Hin [Hm1 Hm2]. unfold abelian.
  destruct (get_vector_floats s ks Hin) as (vs & -> & Hl & Hn).
  set (v1 := map _ (combine ks vs)).
  assert (Hl1 : List.length v1 = List.length ks).
  { unfold v1. rewrite map_length, combine_length. lia. }
  unfold mat_vec.
  assert (Hf : forallb (fun row => Nat.eqb (List.length row) (List.length v1)) m = true).
  { apply forallb_forall. intros row Hr. apply Nat.eqb_eq. rewrite Hl1. auto. }
  rewrite Hf.
  pose proof (abelian_store_effect t o ks s (map (fun row => dot row v1) m) Hnd Hin) as G.
  destruct (abelian_store s ks _ t o) as [[h' c'] e].
  destruct G as (-> & G2 & G3 & G4 & G5); [rewrite map_length; lia|].
  cbn [mass_shell String.eqb]. simpl in *. repeat split; auto.
  intros i d Hi. rewrite (G5 i d Hi), !dget_entry. f_equal. f_equal.
  assert (Hil : (i < List.length ks)%nat) by (apply nth_error_Some; congruence).
  rewrite (nth_indep _ 0 (dot [] v1)) by (rewrite map_length; lia).
  rewrite (map_nth (fun row => dot row v1)).
  rewrite (dot_sum _ _ (List.length ks)); [|apply Hm2, nth_In; lia | auto].
  apply sum_n_ext. intros j Hj. unfold ent. f_equal.
  destruct (nth_error_fname ks j Hin Hj) as [dj Hdj].
  unfold v1.
  rewrite (nth_indep _ 0 (snd (""%string, 0) - dget o (fst (""%string, 0)))) by (fold v1; lia).
  rewrite (map_nth (fun kx => snd kx - dget o (fst kx))).
  rewrite combine_nth by lia. simpl. rewrite dget_entry.
  rewrite (Hn j dj Hdj), (vec_fname s ks j dj Hdj). reflexivity.
Qed.

Lemma nth_of_nth_error (ks : list string) i k : nth_error ks i = Some k -> nth i ks ""%string = k.
Proof. revert ks; induction i; intros [|a ks] H; simpl in *; try discriminate; auto. congruence. Qed.

Lemma vec_after (s : PSt) ks m t o i :
  NoDup ks -> (forall k, In k ks -> In k stored_floats) -> square (List.length ks) m ->
  (i < List.length ks)%nat ->
  vec (fst (abelian s ks m t o "")) ks i =
  sum_n (List.length ks) (fun j => ent m i j * (vec s ks j - entry o (nth j ks ""%string)))
  + entry t (nth i ks ""%string) + entry o (nth i ks ""%string).
Proof.
  intros H1 H2 H3 Hi. pose proof (abelian_effect s ks m t o H1 H2 H3) as G.
  destruct (abelian s ks m t o "") as [s' e]. destruct G as (_ & _ & _ & _ & G).
  destruct (nth_error_fname ks i H2 Hi) as [d Hd]. cbn [fst].
  rewrite (vec_fname s' ks i d Hd), (G i d Hd), (nth_of_nth_error _ _ _ Hd). reflexivity.
Qed.

Lemma in_nth_error (ks : list string) k : In k ks -> exists i, nth_error ks i = Some k /\ (i < List.length ks)%nat.
Proof.
  intros H. destruct (In_nth_error _ _ H) as [i Hi]. exists i. split; auto.
  apply nth_error_Some. congruence.
Qed.

Lemma abelian_frame s ks m t o :
  NoDup ks -> (forall k, In k ks -> In k stored_floats) -> square (List.length ks) m ->
  let s' := fst (abelian s ks m t o "") in
  (forall i, h_int (fst s') i = h_int (fst s) i) /\
  (forall d, ~ In (fname d) ks -> h_dbl (fst s') d = h_dbl (fst s) d).
Proof.
  intros H1 H2 H3. pose proof (abelian_effect s ks m t o H1 H2 H3) as G.
  destruct (abelian s ks m t o "") as [s' e]. destruct G as (_ & _ & G3 & G4 & _). auto.
Qed.

(** Two successive transformations. *)
Lemma abelian_compose (s : PSt) ks m1 m2 m12 t1 t2 t12 o :
  NoDup ks -> (forall k, In k ks -> In k stored_floats) ->
  square (List.length ks) m1 -> square (List.length ks) m2 -> square (List.length ks) m12 ->
  is_product (List.length ks) m2 m1 m12 ->
  (forall i, (i < List.length ks)%nat ->
     entry t12 (nth i ks ""%string) =
     sum_n (List.length ks) (fun j => ent m2 i j * entry t1 (nth j ks ""%string))
     + entry t2 (nth i ks ""%string)) ->
  reads_same (fst (abelian s ks m12 t12 o ""))
             (fst (abelian (fst (abelian s ks m1 t1 o "")) ks m2 t2 o "")).
Proof.
  intros H1 H2 S1 S2 S12 Hp Ht.
  set (s1 := fst (abelian s ks m1 t1 o "")).
  assert (Hv : forall i, (i < List.length ks)%nat ->
    vec (fst (abelian s1 ks m2 t2 o "")) ks i = vec (fst (abelian s ks m12 t12 o "")) ks i).
  { intros i Hi. rewrite !vec_after by auto. rewrite (Ht i Hi).
    rewrite (sum_n_ext _ _ (fun j =>
       sum_n (List.length ks) (fun k => ent m2 i j * (ent m1 j k * (vec s ks k - entry o (nth k ks ""%string))))
       + ent m2 i j * entry t1 (nth j ks ""%string))).
    2:{ intros j Hj. unfold s1. rewrite vec_after by auto. rewrite sum_n_scal. rring. }
    rewrite sum_n_plus, sum_n_swap.
    rewrite (sum_n_ext _ (fun j => ent m12 i j * (vec s ks j - entry o (nth j ks ""%string)))
      (fun j => sum_n (List.length ks) (fun k => ent m2 i k * (ent m1 k j * (vec s ks j - entry o (nth j ks ""%string)))))).
    2:{ intros j Hj. rewrite Hp by auto. rewrite Rmult_comm, <- sum_n_scal.
        apply sum_n_ext. intros; rring. }
    rring. }
  destruct (abelian_frame s ks m1 t1 o H1 H2 S1) as [A3 A4]. fold s1 in A3, A4.
  destruct (abelian_frame s1 ks m2 t2 o H1 H2 S2) as [B3 B4].
  destruct (abelian_frame s ks m12 t12 o H1 H2 S12) as [C3 C4].
  apply reads_same_intro.
  - intros d. destruct (in_dec string_dec (fname d) ks) as [Hd|Hd].
    + destruct (in_nth_error _ _ Hd) as (i & Hi & Hl). specialize (Hv i Hl).
      rewrite (vec_fname _ _ _ _ Hi), (vec_fname _ _ _ _ Hi) in Hv. exact Hv.
    + rewrite B4, A4, C4 by auto. reflexivity.
  - intros i. rewrite B3, A3, C3. reflexivity.
Qed.

Lemma abelian_identity (s : PSt) ks m o :
  NoDup ks -> (forall k, In k ks -> In k stored_floats) ->
  square (List.length ks) m -> is_identity (List.length ks) m ->
  reads_same s (fst (abelian s ks m [] o "")).
Proof.
  intros H1 H2 S1 Hid.
  pose proof (abelian_effect s ks m [] o H1 H2 S1) as G.
  destruct (abelian s ks m [] o "") as [s1 e1]. destruct G as (_ & _ & A3 & A4 & A5).
  cbn [fst]. apply reads_same_intro; auto.
  intros d. destruct (in_dec string_dec (fname d) ks) as [Hd|Hd]; [|auto].
  destruct (in_nth_error _ _ Hd) as (i & Hi & Hl). rewrite (A5 i d Hi).
  rewrite (sum_n_ext _ _ (fun j => (if Nat.eqb i j then 1 else 0) *
     (vec s ks j - entry o (nth j ks ""%string)))).
  2:{ intros j Hj. rewrite Hid by auto. reflexivity. }
  rewrite sum_n_delta by auto. rewrite (vec_fname _ _ _ _ Hi), (nth_of_nth_error _ _ _ Hi).
  simpl. rring.
Qed.

Lemma entry_nil k : entry [] k = 0.
Proof. reflexivity. Qed.

Lemma abelian_inverse (s : PSt) ks m mi o :
  NoDup ks -> (forall k, In k ks -> In k stored_floats) ->
  square (List.length ks) m -> square (List.length ks) mi ->
  (exists id, square (List.length ks) id /\ is_identity (List.length ks) id /\
              is_product (List.length ks) mi m id) ->
  reads_same s (fst (abelian (fst (abelian s ks m [] o "")) ks mi [] o "")).
Proof.
  intros H1 H2 S1 S2 (id & S3 & Hid & Hp).
  pose proof (abelian_identity s ks id o H1 H2 S3 Hid) as Hi.
  assert (Hc : reads_same (fst (abelian s ks id [] o ""))
             (fst (abelian (fst (abelian s ks m [] o "")) ks mi [] o ""))).
  { apply abelian_compose; auto. intros i Hi0. rewrite entry_nil.
    rewrite (sum_n_ext _ _ (fun _ => 0)); [rewrite sum_n_0; simpl; rring|].
    intros; simpl; rring. }
  intros k Hk. rewrite (Hc k Hk). apply (Hi k Hk).
Qed.

(** ---- C25 ---- *)
Lemma Rfloor_spec x : IZR (Rfloor x) <= x < IZR (Rfloor x) + 1.
Proof.
  unfold Rfloor. rewrite minus_IZR. pose proof (archimed x). lra.
Qed.
Lemma Rfloor_unique x n : IZR n <= x < IZR n + 1 -> Rfloor x = n.
Proof.
  intros H. pose proof (Rfloor_spec x) as G.
  assert (A : IZR n < IZR (Rfloor x) + 1) by lra.
  assert (B : IZR (Rfloor x) < IZR n + 1) by lra.
  rewrite <- plus_IZR in A, B. apply lt_IZR in A, B. lia.
Qed.

Definition fold_value (x offset freq : R) : R :=
  x - offset - IZR (Rfloor ((x - offset) * freq + 1 / 2)) / freq.

Lemma period_effect (s : PSt) d offset freq : freq <> 0 ->
  period_hit s offset freq (fname d) =
  ((sd (sd (fst s) d (h_dbl (fst s) d - offset)) d
       (fold_value (h_dbl (fst s) d) offset freq), snd s), None).
Proof.
  intros Hf. unfold period_hit, sub_from. rewrite get_fname. cbn [as_real].
  rewrite set_fname, get_fname. cbn [as_real fst snd].
  rewrite sd_same. unfold py_div. destruct (Req_EM_T freq 0); [contradiction|].
  rewrite set_fname. reflexivity.
Qed.

Lemma fold_range x o f : f <> 0 -> - (1 / 2) <= fold_value x o f * f < 1 / 2.
Proof.
  intros Hf. unfold fold_value.
  pose proof (Rfloor_spec ((x - o) * f + 1 / 2)) as G.
  set (n := IZR (Rfloor ((x - o) * f + 1 / 2))) in *.
  replace ((x - o - n / f) * f) with ((x - o) * f - n) by (rfield; auto). lra.
Qed.

Lemma fold_fixed x f : f <> 0 -> - (1 / 2) <= x * f < 1 / 2 -> fold_value x 0 f = x.
Proof.
  intros Hf H. unfold fold_value.
  rewrite (Rfloor_unique _ 0%Z) by (simpl; lra). simpl. rfield. auto.
Qed.

Lemma fold_periodic x o f n : f <> 0 -> fold_value (x + IZR n / f) o f = fold_value x o f.
Proof.
  intros Hf. unfold fold_value.
  pose proof (Rfloor_spec ((x - o) * f + 1 / 2)) as G.
  rewrite (Rfloor_unique ((x + IZR n / f - o) * f + 1 / 2)
             (Rfloor ((x - o) * f + 1 / 2) + n)%Z).
  - rewrite plus_IZR. rfield. auto.
  - rewrite plus_IZR. replace ((x + IZR n / f - o) * f) with ((x - o) * f + IZR n) by (rfield; auto).
    lra.
Qed.

Lemma period_full (s : PSt) d offset freq : freq <> 0 ->
  let (s', e) := period_hit s offset freq (fname d) in
  e = None /\ snd s' = snd s /\ same_except [d] (fst s) (fst s') /\
  - (1 / 2) <= h_dbl (fst s') d * freq < 1 / 2 /\
  exists n : Z, h_dbl (fst s') d = h_dbl (fst s) d - offset - IZR n / freq.
Proof.
  intros Hf. rewrite period_effect by auto. cbn [fst snd]. rewrite sd_same.
  split; auto. split; auto. split; [|split].
  - split; [|reflexivity]. intros v Hv. rewrite !sd_other; auto; intros <-; apply Hv; left; auto.
  - apply fold_range; auto.
  - eexists. unfold fold_value. reflexivity.
Qed.

Lemma period_idem (s : PSt) d offset freq : freq <> 0 ->
  let s1 := fst (period_hit s offset freq (fname d)) in
  reads_same s1 (fst (period_hit s1 0 freq (fname d))).
Proof.
  intros Hf. cbv zeta. rewrite (period_effect s d offset freq Hf). cbn [fst].
  rewrite period_effect by auto. cbn [fst snd]. apply reads_same_intro; [|reflexivity].
  cbn [fst]. intros v. destruct (dblvar_eq_dec d v) as [->|Hn].
  - rewrite !sd_same. apply fold_fixed; auto. apply fold_range; auto.
  - rewrite !sd_other by auto. reflexivity.
Qed.

(** ---- C55 ---- *)
Lemma hit_eq_iff c tol a b :
  hit_eq c tol a b = true <->
  forall k, In k get_names ->
    exists u v x y, core_get c a k = Some u /\ core_get c b k = Some v /\
      as_real u = Some x /\ as_real v = Some y /\ Rabs (x - y) <= tol.
Proof.
  unfold hit_eq. rewrite forallb_forall. unfold differs. split; intros H k Hk; specialize (H k Hk).
  - destruct (core_get c a k) as [u|]; [|discriminate].
    destruct (core_get c b k) as [v|]; [|discriminate].
    destruct (as_real u) as [x|] eqn:Ex; [|discriminate].
    destruct (as_real v) as [y|] eqn:Ey; [|discriminate].
    destruct (Rlt_dec tol (Rabs (x - y))); [discriminate|].
    exists u, v, x, y. repeat split; auto. lra.
  - destruct H as (u & v & x & y & -> & -> & -> & -> & H).
    destruct (Rlt_dec tol (Rabs (x - y))); [lra|reflexivity].
Qed.

Lemma get_names_total c (h : RHit) k : In k get_names ->
  exists u x, core_get c h k = Some u /\ as_real u = Some x.
Proof.
  intros H. simpl in H.
  repeat (destruct H as [<-|H]; [eexists; eexists; split; reflexivity|]). contradiction.
Qed.

Lemma hit_eq_refl c tol a : 0 <= tol -> hit_eq c tol a a = true.
Proof.
  intros Ht. apply hit_eq_iff. intros k Hk.
  destruct (get_names_total c a k Hk) as (u & x & H1 & H2).
  exists u, u, x, x. repeat split; auto. rewrite Rminus_diag_eq, Rabs_R0; auto.
Qed.

Lemma hit_eq_sym c tol a b : hit_eq c tol a b = hit_eq c tol b a.
Proof.
  assert (G : forall a b, hit_eq c tol a b = true -> hit_eq c tol b a = true).
  { intros a0 b0. rewrite !hit_eq_iff. intros H k Hk.
    destruct (H k Hk) as (u & v & x & y & H1 & H2 & H3 & H4 & H5).
    exists v, u, y, x. repeat split; auto. rewrite Rabs_minus_sym. auto. }
  destruct (hit_eq c tol a b) eqn:E1, (hit_eq c tol b a) eqn:E2; auto.
  - apply G in E1. congruence.
  - apply G in E2. congruence.
Qed.

Lemma hit_eq_meaning c tol a b : 0 <= tol < 1 ->
  (hit_eq c tol a b = true <->
   (forall v, Rabs (h_dbl a v - h_dbl b v) <= tol) /\ (forall i, h_int a i = h_int b i)).
Proof.
  intros Ht. rewrite hit_eq_iff. split.
  - intros H. split.
    + intros v. destruct (H (fname v)) as (u & w & x & y & H1 & H2 & H3 & H4 & H5).
      { destruct v; simpl; tauto. }
      unfold core_get in H1, H2. rewrite fname_get in H1, H2.
      injection H1 as <-. injection H2 as <-. injection H3 as <-. injection H4 as <-. exact H5.
    + assert (G : forall i k, In k get_names ->
        (forall h : RHit, core_get c h k = Some (PInt (h_int h i))) -> h_int a i = h_int b i).
      { intros i k Hk Hg. destruct (H k Hk) as (u & w & x & y & H1 & H2 & H3 & H4 & H5).
        rewrite Hg in H1, H2. injection H1 as <-. injection H2 as <-.
        injection H3 as <-. injection H4 as <-. rewrite <- minus_IZR in H5.
        rewrite <- abs_IZR in H5. assert (Hl : (Z.abs (h_int a i - h_int b i) < 1)%Z).
        { apply lt_IZR. lra. } lia. }
      intros i. destruct i.
      * apply (G Ispill "spill"%string); [simpl; tauto|reflexivity].
      * apply (G Ievent "event_number"%string); [simpl; tauto|reflexivity].
      * apply (G Iparticle "particle_number"%string); [simpl; tauto|reflexivity].
      * apply (G Istation "station"%string); [simpl; tauto|reflexivity].
      * apply (G Istatus "status"%string); [simpl; tauto|reflexivity].
      * apply (G Ipid "pid"%string); [simpl; tauto|reflexivity].
  - intros [Hd Hi] k Hk. simpl in Hk.
    assert (Hw : weight_id a = weight_id b) by (unfold weight_id; rewrite !Hi; reflexivity).
    repeat (destruct Hk as [<-|Hk];
      [eexists; eexists; eexists; eexists; split; [reflexivity|]; split; [reflexivity|];
       split; [reflexivity|]; split; [reflexivity|];
       first [ apply Hd
             | rewrite Hi, Rminus_diag_eq, Rabs_R0 by reflexivity; lra
             | cbn [read_dbl]; unfold global_weight; rewrite Hw, Rminus_diag_eq, Rabs_R0 by reflexivity; lra ]|]).
    contradiction.
Qed.

(** ---- polar coordinates ---- *)
Lemma atan2_polar y x : let r := sqrt (x * x + y * y) in
  x = r * cos (atan2 y x) /\ y = r * sin (atan2 y x).
Proof.
  assert (K : forall z, 0 < z * z -> forall t, sqrt (z * z + t * t) = Rabs z * sqrt (1 + Rsqr (t / z))).
  { intros z Hz t. rewrite <- (sqrt_Rsqr_abs z), <- sqrt_mult_alt by (unfold Rsqr; nra). f_equal. unfold Rsqr. field.
    intros ->. lra. }
  assert (Q : forall z, 0 < sqrt (1 + Rsqr z)).
  { intros z. apply sqrt_lt_R0. pose proof (Rle_0_sqr z). lra. }
  cbv zeta. unfold atan2. destruct (Rlt_dec 0 x) as [Hx|Hx].
  - rewrite K by nra. rewrite cos_atan, sin_atan, Rabs_right by lra. pose proof (Q (y / x)). split; field; lra.
  - destruct (Rlt_dec x 0) as [Hx'|Hx'].
    + rewrite K by nra. rewrite Rabs_left by lra. pose proof (Q (y / x)). destruct (Rle_dec 0 y).
      * rewrite neg_cos, neg_sin, cos_atan, sin_atan. split; field; lra.
      * unfold Rminus. rewrite cos_plus, sin_plus, cos_neg, sin_neg, cos_PI, sin_PI, cos_atan, sin_atan. split; field; lra.
    + assert (x = 0) by lra. subst x. replace (0 * 0 + y * y) with (Rsqr y) by (unfold Rsqr; ring). rewrite sqrt_Rsqr_abs.
      destruct (Rlt_dec 0 y) as [Hy|Hy]; [|destruct (Rlt_dec y 0) as [Hy'|Hy']].
      * rewrite cos_PI2, sin_PI2, Rabs_right by lra. lra.
      * rewrite cos_neg, sin_neg, cos_PI2, sin_PI2, Rabs_left by lra. lra.
      * assert (y = 0) by lra. subst. rewrite Rabs_R0. lra.
Qed.

Lemma atan2_range y x : - PI < atan2 y x <= PI.
Proof.
  pose proof PI_RGT_0. pose proof (atan_bound (y / x)) as B. unfold atan2.
  destruct (Rlt_dec 0 x); [lra|]. destruct (Rlt_dec x 0).
  - destruct (Rle_dec 0 y).
    + assert (atan (y / x) <= 0); [|lra].
      rewrite <- atan_0. destruct (Req_dec y 0) as [->|]; [unfold Rdiv; rewrite Rmult_0_l; lra|].
      left. apply atan_increasing. unfold Rdiv. assert (/ x < 0) by (apply Rinv_lt_0_compat; auto). nra.
    + assert (0 < atan (y / x)); [|lra].
      rewrite <- atan_0. apply atan_increasing. unfold Rdiv. assert (/ x < 0) by (apply Rinv_lt_0_compat; auto). nra.
  - destruct (Rlt_dec 0 y); [lra|]. destruct (Rlt_dec y 0); lra.
Qed.
