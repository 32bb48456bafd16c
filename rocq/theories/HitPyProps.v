(** Properties C10 - C14, C25, C55, C61: numerical methods of a hit. *)
From Coq Require Import Reals ZArith List Bool String Lra Lia.
From Verif Require Import Num WeightModel HitcoreModel HitcoreSpec HitPyModel HitPySpec HitPyProofs.
Import ListNotations.
Open Scope R_scope.

(** ---- C10 ---- *)

(** C10, energy: always succeeds and puts the hit on shell. *)
Theorem C10_mass_shell_energy :
  forall h : RHit,
    let (h', r) := mass_shell h "energy" in
    r = MsTrue /\ on_shell h' /\ 0 <= h_dbl h' Venergy /\ same_except [Venergy] h h'.
Proof. exact shell_energy. Qed.
Print Assumptions C10_mass_shell_energy.

(** C10, px: True exactly when there is room for the component above the tolerance of
    1e-6; then the hit is on shell; otherwise the component is 0. *)
Theorem C10_mass_shell_px :
  forall h : RHit,
    let room := h_dbl h Venergy * h_dbl h Venergy - h_dbl h Vmass * h_dbl h Vmass
                - (h_dbl h Vpy * h_dbl h Vpy + h_dbl h Vpz * h_dbl h Vpz) in
    let (h', r) := mass_shell h "px" in
    same_except [Vpx] h h' /\
    (1 / 1000000 < room -> r = MsTrue /\ on_shell h' /\ h_dbl h' Vpx = sqrt room) /\
    (room <= 1 / 1000000 -> r = MsFalse /\ h_dbl h' Vpx = 0).
Proof. intros h. exact (shell_component h Vpx (or_introl eq_refl)). Qed.
Print Assumptions C10_mass_shell_px.

Theorem C10_mass_shell_py :
  forall h : RHit,
    let room := h_dbl h Venergy * h_dbl h Venergy - h_dbl h Vmass * h_dbl h Vmass
                - (h_dbl h Vpx * h_dbl h Vpx + h_dbl h Vpz * h_dbl h Vpz) in
    let (h', r) := mass_shell h "py" in
    same_except [Vpy] h h' /\
    (1 / 1000000 < room -> r = MsTrue /\ on_shell h' /\ h_dbl h' Vpy = sqrt room) /\
    (room <= 1 / 1000000 -> r = MsFalse /\ h_dbl h' Vpy = 0).
Proof. intros h. exact (shell_component h Vpy (or_intror (or_introl eq_refl))). Qed.
Print Assumptions C10_mass_shell_py.

Theorem C10_mass_shell_pz :
  forall h : RHit,
    let room := h_dbl h Venergy * h_dbl h Venergy - h_dbl h Vmass * h_dbl h Vmass
                - (h_dbl h Vpx * h_dbl h Vpx + h_dbl h Vpy * h_dbl h Vpy) in
    let (h', r) := mass_shell h "pz" in
    same_except [Vpz] h h' /\
    (1 / 1000000 < room -> r = MsTrue /\ on_shell h' /\ h_dbl h' Vpz = sqrt room) /\
    (room <= 1 / 1000000 -> r = MsFalse /\ h_dbl h' Vpz = 0).
Proof. intros h. exact (shell_component h Vpz (or_intror (or_intror eq_refl))). Qed.
Print Assumptions C10_mass_shell_pz.

(** C10, p: when E^2 >= m^2 the hit is put on shell by scaling the momentum vector by a
    non negative number (or along z if it was zero). *)
Theorem C10_mass_shell_p :
  forall h : RHit,
    h_dbl h Vmass * h_dbl h Vmass <= h_dbl h Venergy * h_dbl h Venergy ->
    let (h', r) := mass_shell h "p" in
    r = MsTrue /\ on_shell h' /\ same_except [Vpx; Vpy; Vpz] h h' /\
    exists k, 0 <= k /\
      (get_p h <> 0 -> h_dbl h' Vpx = k * h_dbl h Vpx /\ h_dbl h' Vpy = k * h_dbl h Vpy /\
                       h_dbl h' Vpz = k * h_dbl h Vpz) /\
      (get_p h = 0 -> h_dbl h' Vpx = 0 /\ h_dbl h' Vpy = 0 /\ h_dbl h' Vpz = k).
Proof. exact shell_p. Qed.
Print Assumptions C10_mass_shell_p.

(** C10, p with E^2 < m^2: the call raises, but only after px was overwritten. *)
Theorem C10_mass_shell_p_failure_keeps_hit_refuted :
  exists h : RHit,
    snd (mass_shell h "p") = MsErr EIndexError /\
    h_dbl h Vpx = 3 /\ h_dbl (fst (mass_shell h "p")) Vpx = -1.
Proof.
  exists (sd (sd hit_new Vpx 3) Vmass 100).
  cbn [mass_shell String.eqb Ascii.eqb Bool.eqb]. unfold py_sqrt.
  match goal with |- context [Rlt_dec ?a 0] => destruct (Rlt_dec a 0) as [Hl|Hl] end.
  - cbn [set_p fst snd]. rewrite sd_same. repeat split; auto.
  - exfalso. apply Hl. unfold gd. rewrite !sd_same, !sd_other by discriminate.
    simpl. lra.
Qed.
Print Assumptions C10_mass_shell_p_failure_keeps_hit_refuted.

(** C10: repeating the call changes nothing. *)
Theorem C10_mass_shell_idempotent :
  forall (h : RHit) (k : string),
    In k ["energy"; "px"; "py"; "pz"]%string \/
    (k = "p"%string /\ h_dbl h Vmass * h_dbl h Vmass <= h_dbl h Venergy * h_dbl h Venergy) ->
    let (h1, r1) := mass_shell h k in
    let (h2, r2) := mass_shell h1 k in
    same h1 h2 /\ r2 = r1.
Proof.
  intros h k [[<-|[<-|[<-|[<-|[]]]]]|[-> H]].
  - apply shell_energy_idem.
  - apply (shell_component_idem h Vpx). left; auto.
  - apply (shell_component_idem h Vpy). right; left; auto.
  - apply (shell_component_idem h Vpz). right; right; auto.
  - apply shell_p_idem; auto.
Qed.
Print Assumptions C10_mass_shell_idempotent.

(** C10: the empty name does nothing, any other name is rejected and changes nothing. *)
Theorem C10_mass_shell_other_names :
  forall (h : RHit) (k : string),
    ~ In k ["energy"; "px"; "py"; "pz"; "p"]%string ->
    mass_shell h k = (h, if String.eqb k "" then MsNone else MsErr EIndexError).
Proof.
  intros h k Hk. unfold mass_shell.
  destruct (String.eqb_spec k ""); auto.
  destruct (String.eqb_spec k "p"); [subst; exfalso; apply Hk; simpl; tauto|].
  destruct (String.eqb_spec k "px"); [subst; exfalso; apply Hk; simpl; tauto|].
  destruct (String.eqb_spec k "py"); [subst; exfalso; apply Hk; simpl; tauto|].
  destruct (String.eqb_spec k "pz"); [subst; exfalso; apply Hk; simpl; tauto|].
  destruct (String.eqb_spec k "energy"); [subst; exfalso; apply Hk; simpl; tauto|].
  reflexivity.
Qed.
Print Assumptions C10_mass_shell_other_names.

(** A hit going backwards with E = 5, p = (0, 0, -4), m = 3. *)
Definition ex_back : RHit := sd (sd (sd hit_new Venergy 5) Vmass 3) Vpz (-4).

Example C10_example :
  on_shell ex_back /\
  h_dbl ex_back Vmass * h_dbl ex_back Vmass <= h_dbl ex_back Venergy * h_dbl ex_back Venergy /\
  1 / 1000000 < h_dbl ex_back Venergy * h_dbl ex_back Venergy
    - h_dbl ex_back Vmass * h_dbl ex_back Vmass
    - (h_dbl ex_back Vpx * h_dbl ex_back Vpx + h_dbl ex_back Vpy * h_dbl ex_back Vpy).
Proof. unfold on_shell, ex_back, sd, hit_set_dbl; simpl. repeat split; lra. Qed.

(** ---- C11 ---- *)
Theorem C11_pz_never_negative :
  forall (h : RHit) (k : string) (v : DblVar),
    In (k, v) [("px", Vpx); ("py", Vpy); ("pz", Vpz)]%string ->
    0 <= h_dbl (fst (mass_shell h k)) v.
Proof.
  intros h k v Hk.
  assert (G : is_component v /\ k = fname v).
  { destruct Hk as [E|[E|[E|[]]]]; inversion E; subst; split; try reflexivity;
      unfold is_component; tauto. }
  destruct G as [Hc ->].
  pose proof (shell_component h v Hc) as G. destruct (mass_shell h (fname v)) as [h' r].
  destruct G as (_ & G1 & G2). cbn [fst].
  destruct (Rlt_le_dec ms_tol (room h v)) as [Hl|Hl].
  - destruct (G1 Hl) as (_ & _ & ->). apply sqrt_pos.
  - destruct (G2 Hl) as (_ & ->). lra.
Qed.
Print Assumptions C11_pz_never_negative.

(** C11: for an on-shell hit the size of the component is kept (above tolerance). *)
Theorem C11_size_kept :
  forall (h : RHit) (k : string) (v : DblVar),
    In (k, v) [("px", Vpx); ("py", Vpy); ("pz", Vpz)]%string ->
    on_shell h -> 1 / 1000000 < h_dbl h v * h_dbl h v ->
    h_dbl (fst (mass_shell h k)) v = Rabs (h_dbl h v).
Proof.
  intros h k v Hk Hs Hv.
  assert (G : is_component v /\ k = fname v).
  { destruct Hk as [E|[E|[E|[]]]]; inversion E; subst; split; try reflexivity;
      unfold is_component; tauto. }
  destruct G as [Hc ->].
  assert (Hr : room h v = Rsqr (h_dbl h v)).
  { unfold room, others, Rsqr. unfold on_shell in Hs.
    destruct Hc as [->|[-> | ->]]; rewrite Hs; rring. }
  pose proof (shell_component h v Hc) as G. destruct (mass_shell h (fname v)) as [h' r].
  destruct G as (_ & G1 & _). cbn [fst].
  destruct G1 as (_ & _ & ->).
  - rewrite Hr. unfold ms_tol, Rsqr. exact Hv.
  - rewrite Hr. apply sqrt_Rsqr_abs.
Qed.
Print Assumptions C11_size_kept.

(** C11: "get direction right" is refuted: a backward going on-shell hit is reversed. *)
Theorem C11_direction_kept_refuted :
  exists h : RHit,
    on_shell h /\ h_dbl h Vpz = -4 /\ snd (mass_shell h "pz") = MsTrue /\
    h_dbl (fst (mass_shell h "pz")) Vpz = 4.
Proof.
  exists ex_back. destruct C10_example as (H1 & H2 & H3).
  pose proof (C10_mass_shell_pz ex_back) as G. cbv zeta in G.
  destruct (mass_shell ex_back "pz") as [h' r]. destruct G as (_ & G & _).
  destruct (G H3) as (-> & _ & E). cbn [fst snd]. repeat split; auto.
  rewrite E. replace (_ - _) with (4 * 4).
  - apply sqrt_square. lra.
  - unfold ex_back, sd, hit_set_dbl; simpl. lra.
Qed.
Print Assumptions C11_direction_kept_refuted.

(** ---- C12 ---- *)
Theorem C12_set_p :
  forall (s : PSt) (x : R),
    let (s', e) := py_set s "p" (PFloat (x : RNum)) in
    e = None /\ snd s' = snd s /\ reads s' "p" (Rabs x) /\
    same_except [Vpx; Vpy; Vpz] (fst s) (fst s') /\
    let p2 := h_dbl (fst s) Vpx * h_dbl (fst s) Vpx + h_dbl (fst s) Vpy * h_dbl (fst s) Vpy
              + h_dbl (fst s) Vpz * h_dbl (fst s) Vpz in
    (p2 <> 0 -> exists k,
       (0 <= x -> 0 <= k) /\
       h_dbl (fst s') Vpx = k * h_dbl (fst s) Vpx /\ h_dbl (fst s') Vpy = k * h_dbl (fst s) Vpy /\
       h_dbl (fst s') Vpz = k * h_dbl (fst s) Vpz) /\
    (p2 = 0 -> h_dbl (fst s') Vpx = 0 /\ h_dbl (fst s') Vpy = 0 /\ h_dbl (fst s') Vpz = x).
Proof. exact set_p_get. Qed.
Print Assumptions C12_set_p.

Theorem C12_set_slopes :
  forall (k : string) (v : DblVar) (s : PSt) (x : R),
    (k = "x'"%string /\ v = Vpx) \/ (k = "y'"%string /\ v = Vpy) ->
    let (s', e) := py_set s k (PFloat (x : RNum)) in
    snd s' = snd s /\
    (1 / 1000000000 <= Rabs (h_dbl (fst s) Vpz) ->
       e = None /\ reads s' k x /\ same_except [v] (fst s) (fst s')) /\
    (Rabs (h_dbl (fst s) Vpz) < 1 / 1000000000 -> e = Some EFloatingPoint /\ s' = s).
Proof. exact set_slope_get. Qed.
Print Assumptions C12_set_slopes.

(** C12, t': reads back; |pz| is kept and made positive; an energy below the mass
    raises. *)
Theorem C12_set_time_slope :
  forall (s : PSt) (x : R),
    let (s', e) := py_set s "t'" (PFloat (x : RNum)) in
    snd s' = snd s /\
    (1 / 1000000000 <= Rabs (h_dbl (fst s) Vpz) ->
       reads s' "t'" x /\ same_except [Venergy; Vpz] (fst s) (fst s') /\
       h_dbl (fst s') Vpz = Rabs (h_dbl (fst s) Vpz) /\
       (h_dbl (fst s) Vmass <= - x * Rabs (h_dbl (fst s) Vpz) -> e = None) /\
       (- x * Rabs (h_dbl (fst s) Vpz) < h_dbl (fst s) Vmass -> e = Some EFloatingPoint)) /\
    (Rabs (h_dbl (fst s) Vpz) < 1 / 1000000000 -> e = Some EFloatingPoint /\ s' = s).
Proof. exact set_tP_get. Qed.
Print Assumptions C12_set_time_slope.

(** C12: "error branches raise without setting" is refuted for t'. *)
Theorem C12_time_slope_error_keeps_hit_refuted :
  exists (s : PSt) (x : R),
    snd (py_set s "t'" (PFloat (x : RNum))) = Some EFloatingPoint /\
    h_dbl (fst s) Venergy = 5 /\
    h_dbl (fst (fst (py_set s "t'" (PFloat (x : RNum))))) Vpz = - h_dbl (fst s) Vpz /\
    h_dbl (fst s) Vpz = -4.
Proof.
  exists (ex_back, ctx_new), 1.
  pose proof (C12_set_time_slope (ex_back, ctx_new) 1) as G.
  destruct (py_set (ex_back, ctx_new) "t'" (PFloat (1 : RNum))) as [s' e].
  destruct G as (_ & G & _). cbn [fst snd] in *.
  assert (E : h_dbl ex_back Vpz = -4) by (unfold ex_back; apply sd_same).
  assert (Em : h_dbl ex_back Vmass = 3)
    by (unfold ex_back; rewrite sd_other by discriminate; apply sd_same).
  assert (Ee : h_dbl ex_back Venergy = 5)
    by (unfold ex_back; rewrite !sd_other by discriminate; apply sd_same).
  rewrite E, Em in G. rewrite E, Ee.
  rewrite Rabs_left in G by lra.
  destruct G as (_ & _ & G1 & _ & G2); [lra|].
  repeat split; auto. apply G2. lra.
Qed.
Print Assumptions C12_time_slope_error_keeps_hit_refuted.

Theorem C12_set_ct :
  forall (s : PSt) (x : R),
    let (s', e) := py_set s "ct" (PFloat (x : RNum)) in
    e = None /\ snd s' = snd s /\ reads s' "ct" x /\ same_except [Vt] (fst s) (fst s').
Proof. exact set_ct_get. Qed.
Print Assumptions C12_set_ct.

Theorem C12_set_kinetic_energy :
  forall (s : PSt) (x : R),
    let (s', e) := py_set s "kinetic_energy" (PFloat (x : RNum)) in
    e = None /\ snd s' = snd s /\ reads s' "kinetic_energy" x /\
    same_except [Venergy] (fst s) (fst s').
Proof. exact set_ek_get. Qed.
Print Assumptions C12_set_kinetic_energy.

Example C12_example :
  1 / 1000000000 <= Rabs (h_dbl ex_back Vpz) /\ h_dbl ex_back Vmass <= - (-1) * Rabs (h_dbl ex_back Vpz).
Proof. unfold ex_back, sd, hit_set_dbl; simpl. rewrite Rabs_left by lra. lra. Qed.

(** ---- C13 ---- *)
Theorem C13_translate_adds :
  forall (s : PSt) (d : list (string * R)), float_dict d ->
    let (s', e) := translate s (floats d) "" in
    e = None /\ snd s' = snd s /\
    (forall k x, In k stored_floats -> reads s k x -> reads s' k (x + entry d k)) /\
    (forall k, In k stored_ints -> py_get s' k = py_get s k).
Proof. exact translate_reads. Qed.
Print Assumptions C13_translate_adds.

Theorem C13_translate_composes :
  forall (s : PSt) (d1 d2 d12 : list (string * R)),
    float_dict d1 -> float_dict d2 -> float_dict d12 ->
    (forall k, entry d12 k = entry d1 k + entry d2 k) ->
    let s1 := fst (translate s (floats d1) "") in
    let s2 := fst (translate s1 (floats d2) "") in
    reads_same (fst (translate s (floats d12) "")) s2.
Proof. exact translate_compose. Qed.
Print Assumptions C13_translate_composes.

Theorem C13_translate_inverts :
  forall (s : PSt) (d1 d2 : list (string * R)),
    float_dict d1 -> float_dict d2 -> (forall k, entry d2 k = - entry d1 k) ->
    let s1 := fst (translate s (floats d1) "") in
    let s2 := fst (translate s1 (floats d2) "") in
    reads_same s s2.
Proof. exact translate_inverse. Qed.
Print Assumptions C13_translate_inverts.

(** C13: with mass shell variable 'energy' the translated hit is on shell. *)
Theorem C13_translate_then_mass_shell :
  forall (s : PSt) (d : list (string * R)), float_dict d ->
    let (s', e) := translate s (floats d) "energy" in
    e = None /\ on_shell (fst s') /\
    forall k x, In k stored_floats -> k <> "energy"%string ->
      reads s k x -> reads s' k (x + entry d k).
Proof.
  intros s d H. pose proof (translate_loop_effect d s H) as G. unfold translate.
  destruct (translate_loop s (floats d)) as [[h c] e]. destruct G as (-> & G1 & G2 & G3).
  pose proof (shell_energy h) as E. destruct (mass_shell (fst (h, c)) "energy") as [h' r] eqn:Em.
  cbn [fst] in Em. rewrite Em in E.
  destruct E as (-> & E1 & E2 & E3 & E4). cbn [fst snd] in *.
  split; [reflexivity|]. split; [exact E1|].
  intros k x Hk Hne. destruct (stored_fname k Hk) as [v ->]. unfold reads. rewrite !get_fname.
  cbn [fst]. intros Er. injection Er as Er. rewrite E3, G3.
  - do 2 f_equal. rewrite Er. reflexivity.
  - intros [<-|[]]. apply Hne. reflexivity.
Qed.
Print Assumptions C13_translate_then_mass_shell.

Example C13_example : float_dict [("x"%string, 3); ("pz"%string, -2)].
Proof.
  split.
  - repeat constructor; simpl; intuition discriminate.
  - intros k [<-|[<-|[]]]; simpl; tauto.
Qed.

(** ---- C14 ---- *)
Theorem C14_abelian_formula :
  forall (s : PSt) (ks : list string) (m : list (list R)) (t o : list (string * R)),
    NoDup ks -> (forall k, In k ks -> In k stored_floats) -> square (List.length ks) m ->
    exists v : nat -> R,                             (* the vector before *)
      (forall j k, nth_error ks j = Some k -> reads s k (v j)) /\
      let (s', e) := abelian s ks m t o "" in
      e = None /\ snd s' = snd s /\
      (forall k, stored k -> ~ In k ks -> py_get s' k = py_get s k) /\
      (forall i k, nth_error ks i = Some k ->
         reads s' k (sum_n (List.length ks)
                           (fun j => ent m i j * (v j - entry o (nth j ks ""%string)))
                     + entry t k + entry o k)).
Proof.
  intros s ks m t o H1 H2 H3. exists (vec s ks). split.
  - intros j k Hj. destruct (stored_fname k) as [d ->]; [apply H2; eapply nth_error_In; eauto|].
    unfold reads. rewrite get_fname, (vec_fname _ _ _ _ Hj). reflexivity.
  - pose proof (abelian_effect s ks m t o H1 H2 H3) as G.
    destruct (abelian s ks m t o "") as [s' e]. destruct G as (G1 & G2 & G3 & G4 & G5).
    repeat split; auto.
    + intros k [Hk|Hk] Hn.
      * destruct (stored_fname k Hk) as [d ->]. rewrite !get_fname, (G4 d Hn). reflexivity.
      * destruct (stored_int_get (fst s) (snd s) k Hk) as [i Hi].
        destruct s as [h c], s' as [h' c']. rewrite !Hi. simpl in *. rewrite G3. reflexivity.
    + intros i k Hi. destruct (stored_fname k) as [d ->]; [apply H2; eapply nth_error_In; eauto|].
      unfold reads. rewrite get_fname, (G5 i d Hi). reflexivity.
Qed.
Print Assumptions C14_abelian_formula.

Theorem C14_abelian_composes :
  forall (s : PSt) (ks : list string) (m1 m2 m12 : list (list R)) (t1 t2 t12 o : list (string * R)),
    let n := List.length ks in
    NoDup ks -> (forall k, In k ks -> In k stored_floats) ->
    square n m1 -> square n m2 -> square n m12 ->
    is_product n m2 m1 m12 ->
    (forall i, (i < n)%nat ->
       entry t12 (nth i ks ""%string) =
       sum_n n (fun j => ent m2 i j * entry t1 (nth j ks ""%string)) + entry t2 (nth i ks ""%string)) ->
    reads_same (fst (abelian s ks m12 t12 o ""))
               (fst (abelian (fst (abelian s ks m1 t1 o "")) ks m2 t2 o "")).
Proof. intros; apply abelian_compose; assumption. Qed.
Print Assumptions C14_abelian_composes.

Theorem C14_abelian_identity :
  forall (s : PSt) (ks : list string) (m : list (list R)) (o : list (string * R)),
    NoDup ks -> (forall k, In k ks -> In k stored_floats) ->
    square (List.length ks) m -> is_identity (List.length ks) m ->
    reads_same s (fst (abelian s ks m [] o "")).
Proof. exact abelian_identity. Qed.
Print Assumptions C14_abelian_identity.

Theorem C14_abelian_inverts :
  forall (s : PSt) (ks : list string) (m mi : list (list R)) (o : list (string * R)),
    NoDup ks -> (forall k, In k ks -> In k stored_floats) ->
    square (List.length ks) m -> square (List.length ks) mi ->
    (exists id, square (List.length ks) id /\ is_identity (List.length ks) id /\
                is_product (List.length ks) mi m id) ->
    reads_same s (fst (abelian (fst (abelian s ks m [] o "")) ks mi [] o "")).
Proof. exact abelian_inverse. Qed.
Print Assumptions C14_abelian_inverts.

Example C14_example :
  NoDup ["x"; "px"]%string /\ (forall k, In k ["x"; "px"]%string -> In k stored_floats) /\
  square 2 [[2; 1]; [1; 1]] /\ square 2 [[1; -1]; [-1; 2]] /\
  (exists id, square 2 id /\ is_identity 2 id /\
              is_product 2 [[1; -1]; [-1; 2]] [[2; 1]; [1; 1]] id).
Proof.
  assert (Sq : forall a b c d : R, square 2 [[a; b]; [c; d]]).
  { intros. split; [reflexivity|]. intros row [<-|[<-|[]]]; reflexivity. }
  split; [repeat constructor; simpl; intuition discriminate|].
  split; [intros k [<-|[<-|[]]]; simpl; tauto|].
  split; [apply Sq|]. split; [apply Sq|].
  exists [[1; 0]; [0; 1]]. split; [apply Sq|]. split.
  - intros i j Hi Hj. destruct i as [|[|i]]; destruct j as [|[|j]]; try lia; reflexivity.
  - intros i j Hi Hj. destruct i as [|[|i]]; destruct j as [|[|j]]; try lia; cbn; ring.
Qed.

(** ---- C25 ---- *)
(** C25: for every stored float variable and every non zero frequency.  For a positive
    frequency the range is [-1/(2f), 1/(2f)). *)
Theorem C25_period_folds :
  forall (s : PSt) (k : string) (offset freq x : R),
    In k stored_floats -> 0 < freq -> reads s k x ->
    let (s', e) := period_hit s offset freq k in
    e = None /\ snd s' = snd s /\
    (forall k', stored k' -> k' <> k -> py_get s' k' = py_get s k') /\
    exists (y : R) (n : Z), reads s' k y /\ - (1 / (2 * freq)) <= y < 1 / (2 * freq) /\
      y = x - offset - IZR n / freq.
Proof.
  intros s k offset freq x Hk Hf Hr. destruct (stored_fname k Hk) as [d ->].
  pose proof (period_full s d offset freq ltac:(lra)) as G.
  destruct (period_hit s offset freq (fname d)) as [s' e].
  destruct G as (G1 & G2 & [G3 G3i] & G4 & n & G5).
  unfold reads in Hr. rewrite get_fname in Hr. injection Hr as Hr.
  split; auto. split; auto. split.
  - intros k' [Hk'|Hk'] Hne.
    + destruct (stored_fname k' Hk') as [d' ->]. rewrite !get_fname, G3; auto.
      intros [<-|[]]. apply Hne; auto.
    + destruct (stored_int_get (fst s) (snd s) k' Hk') as [i Hi].
      destruct s as [h c], s' as [h' c']. rewrite !Hi. simpl in *. rewrite G3i. reflexivity.
  - exists (h_dbl (fst s') d), n. split; [apply get_fname|]. split.
    + assert (E : forall z : R, z = z * freq / freq) by (intros; field; lra).
      split.
      * apply Rmult_le_reg_r with freq; [lra|].
        replace (- (1 / (2 * freq)) * freq) with (- (1 / 2)) by (field; lra). lra.
      * apply Rmult_lt_reg_r with freq; [lra|].
        replace (1 / (2 * freq) * freq) with (1 / 2) by (field; lra). lra.
    + rewrite G5, Hr. reflexivity.
Qed.
Print Assumptions C25_period_folds.

Theorem C25_period_idempotent :
  forall (s : PSt) (k : string) (offset freq : R),
    In k stored_floats -> freq <> 0 ->
    let s1 := fst (period_hit s offset freq k) in
    reads_same s1 (fst (period_hit s1 0 freq k)).
Proof.
  intros s k offset freq Hk Hf. destruct (stored_fname k Hk) as [d ->].
  apply period_idem; auto.
Qed.
Print Assumptions C25_period_idempotent.

(** C25: hits that differ by whole periods are mapped to the same value. *)
Theorem C25_period_identifies :
  forall (s s' : PSt) (k : string) (offset freq x : R) (n : Z),
    In k stored_floats -> freq <> 0 -> reads s k x -> reads s' k (x + IZR n / freq) ->
    py_get (fst (period_hit s' offset freq k)) k = py_get (fst (period_hit s offset freq k)) k.
Proof.
  intros s s' k offset freq x n Hk Hf. destruct (stored_fname k Hk) as [d ->].
  unfold reads. rewrite !get_fname. intros E1 E2. injection E1 as E1. injection E2 as E2.
  rewrite !period_effect by auto. cbn [fst].
  rewrite !sd_same, E2, E1, fold_periodic by auto. reflexivity.
Qed.
Print Assumptions C25_period_identifies.

Example C25_example :
  In "t"%string stored_floats /\ 0 < 1 / 5 /\
  reads (sd hit_new Vt 13, ctx_new) "t" 13.
Proof.
  split; [simpl; tauto|]. split; [lra|]. unfold reads.
  change "t"%string with (fname Vt). rewrite get_fname. cbn [fst]. rewrite sd_same. reflexivity.
Qed.

(** ---- C55 ---- *)
(** C55: what equality means: integers equal, floats within the tolerance.  The weight
    context plays no part. *)
Theorem C55_equality_meaning :
  forall (c : RCtx) (tol : R) (a b : RHit), 0 <= tol < 1 ->
    (hit_eq c tol a b = true <->
     (forall v, Rabs (h_dbl a v - h_dbl b v) <= tol) /\ (forall i, h_int a i = h_int b i)).
Proof. exact hit_eq_meaning. Qed.
Print Assumptions C55_equality_meaning.

Theorem C55_reflexive :
  forall (c : RCtx) (tol : R) (a : RHit), 0 <= tol -> hit_eq c tol a a = true.
Proof. exact hit_eq_refl. Qed.
Print Assumptions C55_reflexive.

Theorem C55_symmetric :
  forall (c : RCtx) (tol : R) (a b : RHit), hit_eq c tol a b = hit_eq c tol b a.
Proof. exact hit_eq_sym. Qed.
Print Assumptions C55_symmetric.

Theorem C55_not_equal_is_negation :
  forall (c : RCtx) (tol : R) (a b : RHit),
    hit_ne c tol a b = true <-> hit_eq c tol a b = false.
Proof. intros. unfold hit_ne. destruct (hit_eq c tol a b); simpl; split; congruence. Qed.
Print Assumptions C55_not_equal_is_negation.

Theorem C55_transitive_refuted :
  exists (c : RCtx) (a b d : RHit),
    hit_eq c (1 / 1000000000) a b = true /\ hit_eq c (1 / 1000000000) b d = true /\
    hit_eq c (1 / 1000000000) a d = false.
Proof.
  exists ctx_new, hit_new, (sd hit_new Vx (1 / 1000000000)), (sd hit_new Vx (2 / 1000000000)).
  assert (Ht : 0 <= 1 / 1000000000 < 1) by lra.
  repeat split.
  - apply hit_eq_meaning; auto. split; [|reflexivity]. intros v.
    destruct (dblvar_eq_dec Vx v) as [<-|Hn].
    + rewrite sd_same. simpl. rewrite Rabs_left1; lra.
    + rewrite sd_other by auto. rewrite Rminus_diag_eq, Rabs_R0 by reflexivity. lra.
  - apply hit_eq_meaning; auto. split; [|reflexivity]. intros v.
    destruct (dblvar_eq_dec Vx v) as [<-|Hn].
    + rewrite !sd_same. rewrite Rabs_left1; lra.
    + rewrite !sd_other by auto. rewrite Rminus_diag_eq, Rabs_R0 by reflexivity. lra.
  - destruct (hit_eq _ _ _ _) eqn:E; auto. apply hit_eq_meaning in E; auto.
    destruct E as [E _]. specialize (E Vx). rewrite sd_same in E. simpl in E.
    rewrite Rabs_left1 in E; lra.
Qed.
Print Assumptions C55_transitive_refuted.

Example C55_example :
  0 <= 1 / 1000000000 < 1 /\ h_dbl (sd hit_new Vx (1 / 2000000000)) Vx <> h_dbl (hit_new : RHit) Vx /\
  hit_eq ctx_new (1 / 1000000000) (sd hit_new Vx (1 / 2000000000)) hit_new = true.
Proof.
  split; [lra|]. split; [rewrite sd_same; simpl; lra|].
  apply hit_eq_meaning; [lra|]. split; [|reflexivity]. intros v.
  destruct (dblvar_eq_dec Vx v) as [<-|Hn].
  - rewrite sd_same. simpl. rewrite Rabs_right; lra.
  - rewrite sd_other by auto. rewrite Rminus_diag_eq, Rabs_R0 by reflexivity. lra.
Qed.

(** ---- C61 ---- *)

(** C61.  r, phi and pt, pphi are the polar coordinates of (x, y) and (px, py). *)
Theorem C61_polar : forall s : PSt, exists r phi pt pphi,
  reads s "r" r /\ reads s "phi" phi /\ reads s "pt" pt /\ reads s "pphi" pphi /\
  0 <= r /\ - PI < phi <= PI /\ h_dbl (fst s) Vx = r * cos phi /\ h_dbl (fst s) Vy = r * sin phi /\
  0 <= pt /\ - PI < pphi <= PI /\ h_dbl (fst s) Vpx = pt * cos pphi /\ h_dbl (fst s) Vpy = pt * sin pphi.
Proof.
  intros [h c].
  destruct (atan2_polar (gd h Vy) (gd h Vx)) as [X Y]. destruct (atan2_polar (gd h Vpy) (gd h Vpx)) as [PX PY].
  exists (sqrt (gd h Vx * gd h Vx + gd h Vy * gd h Vy)), (atan2 (gd h Vy) (gd h Vx)),
    (sqrt (gd h Vpx * gd h Vpx + gd h Vpy * gd h Vpy)), (atan2 (gd h Vpy) (gd h Vpx)).
  do 4 (split; [reflexivity|]).
  split; [apply sqrt_pos|]. split; [apply atan2_range|]. split; [exact X|]. split; [exact Y|].
  split; [apply sqrt_pos|]. split; [apply atan2_range|]. split; [exact PX|exact PY].
Qed.
Print Assumptions C61_polar.

(** C61.  Lengths: p, pt, spin and r are not negative, with the right squares; times and
    energies in the documented units (c = 299.792458 mm/ns). *)
Theorem C61_lengths : forall s : PSt, let g := h_dbl (fst s) in
  exists p pt spin r2 ct ek l,
  reads s "p" p /\ reads s "pt" pt /\ reads s "spin" spin /\ reads s "r_squared" r2 /\
  reads s "ct" ct /\ reads s "kinetic_energy" ek /\ reads s "l_kin" l /\ reads s "z'" 1 /\
  0 <= p /\ p * p = g Vpx * g Vpx + g Vpy * g Vpy + g Vpz * g Vpz /\
  p * p = pt * pt + g Vpz * g Vpz /\
  0 <= spin /\ spin * spin = g Vsx * g Vsx + g Vsy * g Vsy + g Vsz * g Vsz /\
  r2 = g Vx * g Vx + g Vy * g Vy /\ ct = 299.792458 * g Vt /\ ek = g Venergy - g Vmass /\
  l = g Vx * g Vpy - g Vy * g Vpx.
Proof.
  intros [h c] g.
  exists (get_p h), (get_pt h), (sqrt (gd h Vsx * gd h Vsx + gd h Vsy * gd h Vsy + gd h Vsz * gd h Vsz)),
    (gd h Vx * gd h Vx + gd h Vy * gd h Vy), (gd h Vt * c_light), (gd h Venergy - gd h Vmass),
    (gd h Vx * gd h Vpy - gd h Vy * gd h Vpx).
  do 8 (split; [reflexivity|]).
  split; [apply sqrt_pos|]. split; [apply get_p_sq|].
  split.
  { rewrite get_p_sq. unfold get_pt. rewrite sqrt_sqrt by (unfold gd; nra). unfold p2, g, gd. cbn [fst]. reflexivity. }
  split; [apply sqrt_pos|]. split; [apply sqrt_sqrt; unfold gd; nra|].
  split; [reflexivity|]. split; [unfold c_light, gd, g; cbn [fst]; lra|]. split; reflexivity.
Qed.
Print Assumptions C61_lengths.

(** C61.  Slopes are quotients by pz; they raise ZeroDivisionError exactly if pz = 0. *)
Theorem C61_slopes : forall s : PSt, let g := h_dbl (fst s) in
  (g Vpz <> 0 ->
     reads s "x'" (g Vpx / g Vpz) /\ reads s "y'" (g Vpy / g Vpz) /\
     reads s "t'" (- g Venergy / g Vpz) /\ reads s "ct'" (- g Venergy / g Vpz) /\
     exists pt, reads s "pt" pt /\ reads s "r'" (pt / g Vpz)) /\
  (g Vpz = 0 -> forall k, In k ["x'"; "y'"; "t'"; "ct'"; "r'"]%string -> py_get s k = inl EZeroDivision).
Proof.
  intros [h c] g.
  assert (D : forall k a, core_get c h k = None -> derived_get h k = Some (py_div a (gd h Vpz)) ->
    (g Vpz <> 0 -> py_get (h, c) k = inr (PFloat ((a / g Vpz) : RNum))) /\
    (g Vpz = 0 -> py_get (h, c) k = inl EZeroDivision)).
  { intros k a C E. unfold py_get. cbn [fst snd]. rewrite C, E. unfold py_div, g, gd. cbn [fst].
    destruct (Req_EM_T (h_dbl h Vpz) 0); split; intros; auto; congruence. }
  pose proof (D "x'"%string (gd h Vpx) eq_refl eq_refl) as D1.
  pose proof (D "y'"%string (gd h Vpy) eq_refl eq_refl) as D2.
  pose proof (D "t'"%string (- gd h Venergy) eq_refl eq_refl) as D3.
  pose proof (D "ct'"%string (- gd h Venergy) eq_refl eq_refl) as D4.
  pose proof (D "r'"%string (get_pt h) eq_refl eq_refl) as D5.
  split.
  - intros N. split; [apply D1; auto|]. split; [apply D2; auto|]. split; [apply D3; auto|]. split; [apply D4; auto|].
    exists (get_pt h). split; [reflexivity|]. apply D5; auto.
  - intros N k [<-|[<-|[<-|[<-|[<-|[]]]]]]; [apply D1|apply D2|apply D3|apply D4|apply D5]; auto.
Qed.
Print Assumptions C61_slopes.

Example C61_example : h_dbl (sd hit_new Vpz 2) Vpz <> 0 /\ h_dbl (hit_new : RHit) Vpz = 0.
Proof. split; [rewrite sd_same; lra|reflexivity]. Qed.
