From Coq Require Import Reals ZArith List Bool String Ascii Lra Lia Permutation Sorted.
From Verif Require Import Num WeightModel HitcoreModel HitcoreSpec HitcoreProofs PyLibModel
  PyLibProofs HitPyModel HitPySpec HitPyProofs TableModel BunchModel BunchNumModel StatProofs
  IOModel IOSpec.
Import ListNotations.
Open Scope string_scope.
Open Scope list_scope.
Open Scope R_scope.

(** ---- dicts with integer keys ---- *)
Lemma zassoc_In {A} (d : list (Z * A)) k v : zassoc d k = Some v -> In (k, v) d.
Proof.
  induction d as [|[k' v'] d IH]; simpl; [discriminate|].
  destruct (Z.eqb_spec k' k); intros H; [left; congruence|right; auto].
Qed.

Lemma zassoc_all {A} (d : list (Z * A)) (P : Z * A -> bool) :
  forallb P d = true -> forall k v, zassoc d k = Some v -> P (k, v) = true.
Proof.
  intros H k v E. apply zassoc_In in E. rewrite forallb_forall in H. auto.
Qed.

Definition oz_eqb (a b : option Z) : bool :=
  match a, b with Some x, Some y => Z.eqb x y | None, None => true | _, _ => false end.
Lemma oz_eqb_eq a b : oz_eqb a b = true -> a = b.
Proof.
  destruct a, b; simpl; try discriminate; auto. intros H. apply Z.eqb_eq in H. congruence.
Qed.

Lemma file_id_translate fmt pid n : In fmt text_formats ->
  (file_id fmt pid n <->
   (if contains fmt "icool" then zassoc pdg_pid_to_icool pid = Some n
    else if contains fmt "mars" then zassoc pdg_pid_to_mars pid = Some n else n = pid)).
Proof.
  intros H. simpl in H.
  decompose [or] H; clear H; subst; try contradiction; unfold file_id; cbn [contains String.index];
    vm_compute String.eqb; cbv iota; cbn [orb];
    match goal with |- context[contains ?a ?b] => 
      let x := eval vm_compute in (contains a b) in change (contains a b) with x end; cbv iota;
    try match goal with |- context[contains ?a ?b] => 
      let x := eval vm_compute in (contains a b) in change (contains a b) with x end; cbv iota;
    try tauto; split; intros E.
  all: try (simpl in E; decompose [or] E; clear E; try contradiction;
     match goal with H : (_, _) = (_, _) |- _ => inversion H; subst end; reflexivity).
  all: apply zassoc_In in E; revert E;
    match goal with |- In _ ?d -> _ => let x := eval vm_compute in d in change d with x end;
    intros E; simpl in E; decompose [or] E; clear E; try contradiction;
    match goal with H : (_, _) = (_, _) |- _ => inversion H; subst end; simpl; tauto.
Qed.

(** ---- functions of a hit only depend on its members ---- *)
Lemma get_p_ext (h h' : RHit) : same h h' -> get_p h' = get_p h.
Proof. intros [A B]. unfold get_p, gd. rewrite !A by auto. reflexivity. Qed.

Lemma core_get_same (c : RCtx) (h h' : RHit) k : same h h' -> core_get c h' k = core_get c h k.
Proof.
  intros [A B]. unfold core_get, read_dbl, global_weight.
  rewrite (weight_id_ext RNum h h') by auto.
  destruct (assoc get_dbl_map k) as [[v| |]|]; rewrite ?A by auto; auto.
  destruct (assoc get_int_map k); rewrite ?B; auto.
Qed.

Lemma py_get_same (c : RCtx) (h h' : RHit) k : same h h' -> py_get (h', c) k = py_get (h, c) k.
Proof.
  intros S. unfold py_get. cbn [fst snd]. rewrite (core_get_same c h h') by auto.
  destruct (core_get c h k); auto.
  replace (derived_get h' k) with (derived_get h k); auto.
  unfold derived_get, get_pt. rewrite (get_p_ext h h') by auto. destruct S as [A B].
  unfold gd. rewrite !A by auto. reflexivity.
Qed.

Lemma same_sym (h h' : RHit) : same h h' -> same h' h.
Proof. intros [A B]. split; intros; symmetry; auto. Qed.
Lemma same_trans (a b c : RHit) : same a b -> same b c -> same a c.
Proof. intros [A B] [C D]. split; intros; [rewrite C, A|rewrite D, B]; auto. Qed.

Definition set_pid (h : RHit) (z : Z) : RHit := hit_set_int h Ipid z.

Definition int32 (z : Z) : Prop := (-2147483648 <= z < 2147483648)%Z.

Lemma py_set_pid (h : RHit) (c : RCtx) z : int32 z ->
  py_set (h, c) "pid" (PInt z) = ((set_pid h z, c), None).
Proof.
  intros H. unfold py_set, core_set.
  cbn -[in_long wrap32 hit_set_int]. rewrite in_long_range by exact H.
  rewrite wrap32_id by exact H. reflexivity.
Qed.

Lemma set_pid_twice (h : RHit) z z' : same (set_pid h z') (set_pid (set_pid h z) z').
Proof.
  split; intros; cbn; auto. destruct i; reflexivity.
Qed.
Lemma set_pid_id (h : RHit) : same h (set_pid h (h_int h Ipid)).
Proof. split; intros; cbn; auto. destruct i; reflexivity. Qed.

Lemma small_table (d : list (Z * Z)) :
  forallb (fun kv => (Z.leb (-2147483648) (snd kv) && Z.ltb (snd kv) 2147483648)%bool) d = true ->
  forall k v, zassoc d k = Some v -> int32 v.
Proof.
  intros H k v E. pose proof (zassoc_all d _ H k v E) as P. cbn in P.
  apply andb_prop in P. destruct P as [P1 P2].
  apply Z.leb_le in P1. apply Z.ltb_lt in P2. split; auto.
Qed.

Lemma trunc_int z : trunc (IZR z / 1) = z.
Proof.
  replace (IZR z / 1) with (IZR z) by field. unfold trunc.
  destruct (Rle_dec 0 (IZR z)).
  - apply Rfloor_unique. lra.
  - rewrite (Rfloor_unique (- IZR z) (- z)); [lia|]. rewrite opp_IZR. lra.
Qed.
Arguments trunc : simpl never.

(** The hit as it is while the line is written. *)
Definition renumbered (fmt : string) (h : RHit) (n : Z) : RHit :=
  if (contains fmt "icool" || contains fmt "mars")%bool then set_pid h n else h.

Definition fmt_units (fmt : string) : list (string * string) :=
  match assoc (file_units "mm") fmt with Some us => us | None => [] end.
Definition fmt_cols (fmt : string) : list string :=
  match assoc file_formats fmt with Some cols => cols | None => [] end.

Lemma milli : 0.001 = 1 / 1000.
Proof. lra. Qed.

Ltac each_format H :=
  simpl in H; decompose [or] H; clear H; subst; try contradiction.

Lemma write_columns_spec fmt (h : RHit) (c : RCtx) n : In fmt text_formats ->
  file_id fmt (h_int h Ipid) n ->
  exists ts, write_columns (renumbered fmt h n, c) (fmt_units fmt) (fmt_cols fmt) = inr ts /\
             Forall2 (column_holds fmt (h, c)) (columns fmt) ts.
Proof.
  intros F I. each_format F.
  all: eexists; split; [cbn -[Rdiv c_light]; reflexivity|].
  all: cbn [columns]; unfold columns; cbn [map app String.eqb Ascii.eqb Bool.eqb];
    repeat (constructor; [unfold column_holds; cbn [fst snd String.eqb Ascii.eqb Bool.eqb]|]).
  all: try (apply Forall2_nil).
  all: try reflexivity.
  all: try (eexists _, n; split; [reflexivity|split; [exact I|]]; rewrite ?trunc_int; reflexivity).
  all: try (left; eexists; split; [reflexivity|]; rewrite trunc_int; reflexivity).
  all: try (right; do 2 eexists; split; [reflexivity|]; split; [reflexivity|]; toR; rewrite ?milli; cbn -[c_light]; field).
  3: { right. exists (h_dbl h Vt * c_light : R), (h_dbl h Vt * c_light / 10 : R).
       split; [reflexivity|]. split; [reflexivity|]. toR. field. }
  all: exists (h_int h Ipid), n; split; [reflexivity|split; [exact I|]]; rewrite trunc_int;
    unfold file_id in I; cbn in I; subst; reflexivity.
Qed.

(** Names of the integer members. *)
Definition iname (i : IntVar) : string :=
  match i with
  | Ispill => "spill" | Ievent => "event_number" | Iparticle => "particle_number"
  | Istation => "station" | Istatus => "status" | Ipid => "pid"
  end.

(** The hit read from the columns, before pid translation, mass and charge. *)
Definition from_columns (fmt : string) (h : RHit) (n : Z) (h1 : RHit) : Prop :=
  (forall v, h_dbl h1 v = if carried fmt (fname v) then h_dbl h v else h_dbl (@hit_new RNum) v) /\
  (forall i, h_int h1 i = if intvar_eq_dec i Ipid then n
                          else if carried fmt (iname i) then h_int h i else 0%Z).

Lemma file_id_int32 fmt z n : In fmt text_formats -> int32 z -> file_id fmt z n -> int32 n.
Proof.
  intros F Z I. each_format F; unfold file_id in I; cbn in I;
    try (subst; exact Z);
    (repeat destruct I as [I|I]; try contradiction; inversion I; subst; split; lia).
Qed.

Lemma c_light_nz : c_light <> 0.
Proof. unfold c_light. lra. Qed.

Lemma pset_int (h : RHit) (c : RCtx) k i z : assoc set_dbl_map k = None ->
  assoc set_int_map k = Some i -> int32 z ->
  py_set (h, c) k (PInt z) = ((hit_set_int h i z, c), None).
Proof.
  intros A B H. unfold py_set, core_set. cbn [fst snd]. rewrite A, B.
  cbn -[in_long wrap32 hit_set_int]. rewrite in_long_range by exact H.
  rewrite wrap32_id by exact H. reflexivity.
Qed.
Lemma pset_dbl (h : RHit) (c : RCtx) k d (x : R) : assoc set_dbl_map k = Some (DStored d) ->
  py_set (h, c) k (PFloat (x : RNum)) = ((hit_set_dbl h d (x : RNum), c), None).
Proof. intros A. unfold py_set, core_set. cbn [fst snd]. rewrite A. reflexivity. Qed.
Lemma pset_ct (h : RHit) (c : RCtx) (x : R) :
  py_set (h, c) "ct" (PFloat (x : RNum)) = ((hit_set_dbl h Vt (x / c_light : RNum), c), None).
Proof. reflexivity. Qed.

Ltac psets :=
  repeat (match goal with
  | |- context[py_set (?h, ?c) "ct" (PFloat ?x)] => rewrite (pset_ct h c x)
  | |- context[py_set (?h, ?c) ?k (PFloat ?x)] =>
      erewrite (pset_dbl h c k _ x) by reflexivity
  | |- context[py_set (?h, ?c) ?k (PInt ?z)] =>
      erewrite (pset_int h c k _ z) by (first [reflexivity | assumption | auto])
  end; cbv beta iota).

Lemma write_read_columns fmt (h : RHit) (c c' : RCtx) n : In fmt text_formats ->
  (forall i, int32 (h_int h i)) -> file_id fmt (h_int h Ipid) n ->
  exists ts h1, write_columns (renumbered fmt h n, c) (fmt_units fmt) (fmt_cols fmt) = inr ts /\
    read_formatted (fmt_units fmt) (fmt_cols fmt) c' ts = RHitOk h1 /\
    from_columns fmt h n h1.
Proof.
  intros F W I. pose proof (file_id_int32 _ _ _ F (W Ipid) I) as Wn.
  each_format F.
  all: eexists _, _; split; [cbn -[Rdiv c_light]; reflexivity|].
  all: rewrite !trunc_int.
  all: split; [cbn -[Rdiv Rmult c_light py_set]; psets; reflexivity|].
  all: unfold file_id in I; cbn in I; try subst n.
  all: split; [intros v; destruct v; cbn; toR; try reflexivity; rewrite ?milli;
     try (field; try exact c_light_nz) | intros i; destruct i; reflexivity].
Qed.

(** ---- one hit ---- *)
Definition kind (fmt : string) : nat :=
  if contains fmt "icool" then 1%nat else if contains fmt "mars" then 2%nat else 0%nat.

Lemma format_facts fmt : In fmt text_formats ->
  contains fmt "maus" = false /\
  assoc file_formats fmt = Some (fmt_cols fmt) /\
  assoc (file_units "mm") fmt = Some (fmt_units fmt) /\
  assoc file_mass_shell fmt = Some "energy" /\
  is_in "charge" (fmt_cols fmt) = false /\
  is_in fmt file_types = true /\
  (contains fmt "icool" = true -> contains fmt "mars" = false).
Proof.
  intros F. each_format F; repeat split; try reflexivity; vm_compute; auto; discriminate.
Qed.

Lemma pid_back fmt pid n : In fmt text_formats -> file_id fmt pid n ->
  if contains fmt "icool" then zassoc icool_pid_to_pdg n = Some pid
  else if contains fmt "mars" then zassoc mars_pid_to_pdg n = Some pid else n = pid.
Proof.
  intros F I. each_format F; unfold file_id in I; cbn in I;
    match goal with |- context[contains ?a "icool"] => 
      let x := eval vm_compute in (contains a "icool") in change (contains a "icool") with x end;
    cbv iota;
    try match goal with |- context[contains ?a "mars"] => 
      let x := eval vm_compute in (contains a "mars") in change (contains a "mars") with x end;
    cbv iota; auto;
    (repeat destruct I as [I|I]; try contradiction; inversion I; subst; reflexivity).
Qed.

Lemma translate_pid_eq (h : RHit) (c : RCtx) t z : zassoc t (h_int h Ipid) = Some z -> int32 z ->
  translate_pid (h, c) t = ((set_pid h z, c), None).
Proof.
  intros E Z. unfold translate_pid. change (py_get (h, c) "pid") with (@inr PyErr RVal (PInt (h_int h Ipid))).
  cbv iota. rewrite E. rewrite py_set_pid by exact Z. reflexivity.
Qed.
Lemma translate_pid_none (h : RHit) (c : RCtx) t : zassoc t (h_int h Ipid) = None ->
  translate_pid (h, c) t = ((h, c), Some IKeyError).
Proof.
  intros E. unfold translate_pid. change (py_get (h, c) "pid") with (@inr PyErr RVal (PInt (h_int h Ipid))).
  cbv iota. rewrite E. reflexivity.
Qed.
Arguments translate_pid : simpl never.

Lemma pid_of_set (h : RHit) z : h_int (set_pid h z) Ipid = z.
Proof. reflexivity. Qed.

Lemma write_hit_spec fmt (h : RHit) (c : RCtx) n ts : In fmt text_formats ->
  int32 (h_int h Ipid) -> file_id fmt (h_int h Ipid) n ->
  write_columns (renumbered fmt h n, c) (fmt_units fmt) (fmt_cols fmt) = inr ts ->
  exists h', write_hit "mm" fmt (h, c) = ((h', c), inr ts) /\ same h h'.
Proof.
  intros F W I E. pose proof (file_id_int32 _ _ _ F W I) as Wn.
  pose proof (proj1 (file_id_translate fmt _ _ F) I) as T.
  pose proof (pid_back fmt _ _ F I) as B.
  destruct (format_facts fmt F) as (F1 & F2 & F3 & F4 & F5 & F6 & F7).
  unfold write_hit. rewrite F1, F2, F3.
  assert (R1 : same h (set_pid (set_pid h n) (h_int h Ipid))).
  { eapply same_trans; [apply set_pid_id|]. apply set_pid_twice. }
  unfold renumbered in E.
  destruct (contains fmt "icool") eqn:C1.
  - rewrite (F7 eq_refl) in *. cbn [orb] in E. cbn [translate_if].
    rewrite (translate_pid_eq h c _ n T Wn). rewrite E.
    rewrite (translate_pid_eq (set_pid h n) c _ (h_int h Ipid)) by (rewrite ?pid_of_set; auto).
    eexists; split; [reflexivity|]. exact R1.
  - destruct (contains fmt "mars") eqn:C2; cbn [orb] in E; cbn [translate_if].
    + rewrite (translate_pid_eq h c _ n T Wn). rewrite E.
      rewrite (translate_pid_eq (set_pid h n) c _ (h_int h Ipid)) by (rewrite ?pid_of_set; auto).
      eexists; split; [reflexivity|]. exact R1.
    + rewrite E. exists h. split; [reflexivity|]. apply same_refl.
Qed.

Lemma write_hit_none fmt (h : RHit) (c : RCtx) : In fmt text_formats ->
  ~ writable fmt (h_int h Ipid) -> write_hit "mm" fmt (h, c) = ((h, c), inl IKeyError).
Proof.
  intros F I.
  assert (T : forall n, ~ (if contains fmt "icool" then zassoc pdg_pid_to_icool (h_int h Ipid) = Some n
    else if contains fmt "mars" then zassoc pdg_pid_to_mars (h_int h Ipid) = Some n
    else n = h_int h Ipid)).
  { intros n Hn. apply I. exists n. apply file_id_translate; auto. }
  destruct (format_facts fmt F) as (F1 & F2 & F3 & F4 & F5 & F6 & F7).
  unfold write_hit. rewrite F1.
  destruct (contains fmt "icool") eqn:C1.
  - cbn [translate_if]. rewrite translate_pid_none; [reflexivity|].
    destruct (zassoc pdg_pid_to_icool (h_int h Ipid)) eqn:E; auto. destruct (T z eq_refl).
  - destruct (contains fmt "mars") eqn:C2; cbn [translate_if].
    + rewrite translate_pid_none; [reflexivity|].
      destruct (zassoc pdg_pid_to_mars (h_int h Ipid)) eqn:E; auto. destruct (T z eq_refl).
    + destruct (T _ eq_refl).
Qed.

Lemma writable_dec fmt pid : In fmt text_formats -> writable fmt pid \/ ~ writable fmt pid.
Proof.
  intros F.
  assert (D : writable fmt pid <-> exists n, (if contains fmt "icool" then zassoc pdg_pid_to_icool pid = Some n
    else if contains fmt "mars" then zassoc pdg_pid_to_mars pid = Some n else n = pid)).
  { split; intros [n H]; exists n; apply file_id_translate; auto. }
  rewrite D. clear D.
  destruct (contains fmt "icool"); [|destruct (contains fmt "mars")].
  - destruct (zassoc pdg_pid_to_icool pid) eqn:E; [left; eauto|right; intros [n H]; discriminate].
  - destruct (zassoc pdg_pid_to_mars pid) eqn:E; [left; eauto|right; intros [n H]; discriminate].
  - left; eauto.
Qed.

(** The hit read back. *)
Definition energy_of (h : RHit) (m : R) : R :=
  sqrt (m * m + h_dbl h Vpx * h_dbl h Vpx + h_dbl h Vpy * h_dbl h Vpy + h_dbl h Vpz * h_dbl h Vpz).

Definition restored (fmt : string) (h h' : RHit) : Prop :=
  let pid := h_int h Ipid in
  (forall v, h_dbl h' v =
     match v with
     | Vmass => mass_for pid
     | Vcharge => charge_for pid
     | Venergy => energy_of h (mass_for pid)
     | _ => if carried fmt (fname v) then h_dbl h v else h_dbl (@hit_new RNum) v
     end) /\
  (forall i, h_int h' i = if carried fmt (iname i) then h_int h i else 0%Z).

Lemma complete_spec cols (c : RCtx) (h : RHit) : is_in "charge" cols = false ->
  h_dbl h Vcharge = 0 ->
  let h' := complete cols "energy" c h in
  (forall v, h_dbl h' v =
     match v with
     | Vmass => mass_for (h_int h Ipid)
     | Vcharge => charge_for (h_int h Ipid)
     | Venergy => energy_of h (mass_for (h_int h Ipid))
     | _ => h_dbl h v
     end) /\ (forall i, h_int h' i = h_int h i).
Proof.
  intros C Q. unfold complete. rewrite C.
  set (m := match zassoc pdg_pid_to_mass (Z.abs (pid_of h)) with Some m => m | None => 0 end).
  change (mass_for (h_int h Ipid)) with m.
  unfold put. rewrite (pset_dbl h c "mass" Vmass m) by reflexivity. cbn [fst].
  change (mass_shell (hit_set_dbl h Vmass m) "energy")
    with (sd (hit_set_dbl h Vmass m) Venergy (energy_of h m), MsTrue). cbn [fst].
  change (pid_of (sd (hit_set_dbl h Vmass m) Venergy (energy_of h m))) with (h_int h Ipid).
  unfold charge_for. destruct (zassoc pdg_pid_to_charge (h_int h Ipid)).
  - split; [intros v; destruct v; reflexivity|reflexivity].
  - split; [intros v; destruct v; try reflexivity; exact Q|reflexivity].
Qed.
Arguments complete : simpl never.

Lemma carried_pid fmt : In fmt text_formats -> carried fmt "pid" = true.
Proof. intros F. each_format F; reflexivity. Qed.
Lemma carried_p fmt v : In fmt text_formats -> In v [Vpx; Vpy; Vpz] -> carried fmt (fname v) = true.
Proof. intros F H. each_format F; each_format H; reflexivity. Qed.
Lemma carried_charge fmt : In fmt text_formats -> carried fmt "charge" = false.
Proof. intros F. each_format F; reflexivity. Qed.

Lemma read_hit_spec fmt (h h1 : RHit) (c : RCtx) n ts : In fmt text_formats ->
  int32 (h_int h Ipid) -> file_id fmt (h_int h Ipid) n ->
  read_formatted (fmt_units fmt) (fmt_cols fmt) c ts = RHitOk h1 -> from_columns fmt h n h1 ->
  exists h', read_hit fmt c ts = RHitOk h' /\ restored fmt h h'.
Proof.
  intros F W I E [D1 D2]. pose proof (file_id_int32 _ _ _ F W I) as Wn.
  pose proof (pid_back fmt _ _ F I) as B.
  destruct (format_facts fmt F) as (F1 & F2 & F3 & F4 & F5 & F6 & F7).
  unfold read_hit. rewrite F2, F3, F4, E.
  assert (P1 : h_int h1 Ipid = n) by (rewrite D2; reflexivity).
  assert (G : forall h2, (forall v, h_dbl h2 v = h_dbl h1 v) ->
     (forall i, h_int h2 i = if intvar_eq_dec i Ipid then h_int h Ipid else h_int h1 i) ->
     exists h', RHitOk (complete (fmt_cols fmt) "energy" c h2) = RHitOk h' /\ restored fmt h h').
  { intros h2 G1 G2. eexists; split; [reflexivity|].
    assert (P : h_int h2 Ipid = h_int h Ipid) by (rewrite G2; reflexivity).
    assert (Q : h_dbl h2 Vcharge = 0).
    { rewrite G1, D1. change (fname Vcharge) with "charge". rewrite carried_charge; auto. }
    destruct (complete_spec (fmt_cols fmt) c h2 F5 Q) as [H1 H2]. rewrite P in H1.
    split.
    - intros v. rewrite H1.
      assert (EE : energy_of h2 (mass_for (h_int h Ipid)) = energy_of h (mass_for (h_int h Ipid))).
      { unfold energy_of. rewrite !G1, !D1. rewrite !carried_p by (auto; simpl; tauto). reflexivity. }
      destruct v; auto; rewrite G1, D1; reflexivity.
    - intros i. rewrite H2, G2. destruct (intvar_eq_dec i Ipid) as [->|N].
      + change (iname Ipid) with "pid". rewrite carried_pid by auto. reflexivity.
      + rewrite D2. destruct (intvar_eq_dec i Ipid); [contradiction|]. reflexivity. }
  destruct (contains fmt "icool") eqn:C1.
  - rewrite (F7 eq_refl). cbn [translate_if].
    rewrite (translate_pid_eq h1 c _ (h_int h Ipid)) by (rewrite ?P1; auto). cbn [fst].
    apply G; [reflexivity|intros i; destruct i; reflexivity].
  - destruct (contains fmt "mars") eqn:C2; cbn [translate_if].
    + rewrite (translate_pid_eq h1 c _ (h_int h Ipid)) by (rewrite ?P1; auto). cbn [fst].
      apply G; [reflexivity|intros i; destruct i; reflexivity].
    + cbn [fst]. apply G; auto. intros i. destruct (intvar_eq_dec i Ipid) as [->|]; auto. congruence.
Qed.

(** ---- lists of hits ---- *)
Definition weq (w w' : RWorld) : Prop :=
  cur_ctx w' = cur_ctx w /\
  forall l, match w_hits w l, w_hits w' l with
            | Some h, Some h' => same h h'
            | None, None => True
            | _, _ => False
            end.

Lemma weq_refl w : weq w w.
Proof. split; auto. intros l. destruct (w_hits w l); auto. apply same_refl. Qed.
Lemma weq_trans a b c : weq a b -> weq b c -> weq a c.
Proof.
  intros [A B] [C D]. split; [congruence|]. intros l. specialize (B l). specialize (D l).
  destruct (w_hits a l), (w_hits b l), (w_hits c l); try contradiction; auto.
  eapply same_trans; eauto.
Qed.
Lemma weq_get w w' : weq w w' -> nothing_changed w w'.
Proof.
  intros [A B] l k. unfold hit_get. specialize (B l). rewrite A.
  destruct (w_hits w l), (w_hits w' l); try contradiction; auto. apply core_get_same; auto.
Qed.

Definition ints_ok (w : RWorld) : Prop := forall l h i, w_hits w l = Some h -> int32 (h_int h i).
Lemma weq_ints w w' : weq w w' -> ints_ok w -> ints_ok w'.
Proof.
  intros [A B] H l h' i E. specialize (B l). rewrite E in B.
  destruct (w_hits w l) eqn:E1; [|contradiction]. destruct B as [_ B]. rewrite B. eapply H; eauto.
Qed.

Lemma reach_ints p : ints_ok (wrun (N := RNum) p).
Proof. intros l h i E. eapply wf_ints; eauto. apply wf_run. Qed.

Lemma writable_pid (fmt : string) (h h' : RHit) : same h h' -> h_int h' Ipid = h_int h Ipid.
Proof. intros [_ B]. apply B. Qed.

(** What write_at does. *)
Lemma renumbered_same fmt (h h' : RHit) n : same h h' -> same (renumbered fmt h n) (renumbered fmt h' n).
Proof.
  intros [A B]. unfold renumbered. destruct (_ || _)%bool; [|split; auto].
  split; intros; cbn; auto. destruct i; cbn; auto.
Qed.
Lemma write_columns_same (c : RCtx) us cols (h h' : RHit) : same h h' ->
  write_columns (h', c) us cols = write_columns (h, c) us cols.
Proof.
  intros S. induction cols as [|k r IH]; simpl; auto.
  rewrite IH. unfold write_column. rewrite (py_get_same c h h') by auto. reflexivity.
Qed.

Lemma write_at_spec fmt w l : In fmt text_formats -> ints_ok w -> is_hit w l ->
  weq w (fst (write_at "mm" fmt w l)) /\
  forall w1, weq w w1 -> snd (write_at "mm" fmt w1 l) = snd (write_at "mm" fmt w l).
Proof.
  intros F W H. unfold is_hit in H. unfold write_at at 1.
  destruct (w_hits w l) as [h|] eqn:E; [|congruence].
  assert (WE : forall h', same h h' -> weq w (with_hit (with_cur w (cur_ctx w)) l h')).
  { intros h' S. split; [apply cur_with_cur|]. intros k. unfold with_hit. cbn [w_hits].
    destruct (Nat.eq_dec l k) as [->|N].
    - rewrite fupd_same, E. exact S.
    - rewrite fupd_other by auto. cbn [with_cur w_hits]. destruct (w_hits w k); auto. apply same_refl. }
  destruct (writable_dec fmt (h_int h Ipid) F) as [[n I]|I].
  - destruct (write_read_columns fmt h (cur_ctx w) (cur_ctx w) n F (fun i => W l h i E) I) as (ts & h1 & T1 & _ & _).
    destruct (write_hit_spec fmt h (cur_ctx w) n ts F (W l h Ipid E) I T1) as (h' & T2 & T3).
    rewrite T2. cbn [fst snd]. split; [apply WE; auto|].
    intros w1 W1. unfold write_at. pose proof W1 as [C1 C2]. specialize (C2 l). rewrite E in *.
    destruct (w_hits w1 l) as [g|]; [|contradiction].
    rewrite C1. rewrite T2.
    assert (T1g : write_columns (renumbered fmt g n, cur_ctx w) (fmt_units fmt) (fmt_cols fmt) = inr ts).
    { rewrite (write_columns_same _ _ _ (renumbered fmt h n)); auto. apply renumbered_same; auto. }
    assert (Ig : file_id fmt (h_int g Ipid) n) by (rewrite (writable_pid fmt h g C2); auto).
    assert (Wg : int32 (h_int g Ipid)) by (rewrite (writable_pid fmt h g C2); eapply W; eauto).
    destruct (write_hit_spec fmt g (cur_ctx w) n ts F Wg Ig T1g) as (g' & G2 & _).
    rewrite G2. reflexivity.
  - rewrite (write_hit_none fmt h (cur_ctx w) F I). cbn [fst snd].
    split; [apply WE, same_refl|].
    intros w1 [C1 C2]. unfold write_at. specialize (C2 l). rewrite E in *.
    destruct (w_hits w1 l) as [g|]; [|contradiction].
    rewrite C1. rewrite (write_hit_none fmt h (cur_ctx w) F I).
    rewrite (write_hit_none fmt g (cur_ctx w) F); [reflexivity|].
    rewrite (writable_pid fmt h g C2). exact I.
Qed.
Arguments write_at : simpl never.

Definition lines_at (fmt : string) (w : RWorld) (l : nat) : list Line :=
  match snd (write_at "mm" fmt w l) with inr ts => [LData ts] | inl _ => [] end.

Lemma weq_is_hit w w' l : weq w w' -> is_hit w l -> is_hit w' l.
Proof.
  intros [_ B] H. unfold is_hit in *. specialize (B l).
  destruct (w_hits w l); [|congruence]. destruct (w_hits w' l); [discriminate|contradiction].
Qed.

Lemma write_group_spec fmt ls : In fmt text_formats -> forall w w0, ints_ok w0 -> weq w0 w ->
  (forall l, In l ls -> is_hit w0 l) ->
  exists w', write_group "mm" fmt w ls = (w', flat_map (lines_at fmt w0) ls) /\ weq w0 w'.
Proof.
  intros F. induction ls as [|l r IH]; intros w w0 W Q H; simpl; [eauto|].
  pose proof (H l (or_introl eq_refl)) as Hl.
  destruct (write_at_spec fmt w0 l F W Hl) as [S1 S2].
  specialize (S2 w Q).
  destruct (write_at_spec fmt w l F (weq_ints _ _ Q W) (weq_is_hit _ _ _ Q Hl)) as [S3 _].
  destruct (write_at "mm" fmt w l) as [w1 res] eqn:E1. cbn [fst snd] in *.
  destruct (IH w1 w0 W (weq_trans _ _ _ Q S3) (fun k Hk => H k (or_intror Hk))) as (w2 & E2 & Q2).
  rewrite E2. exists w2. split; auto. f_equal.
  replace (lines_at fmt w0 l) with (match res with inr ts => [LData ts] | inl _ => [] end)
    by (unfold lines_at; rewrite <- S2; reflexivity).
  destruct res; reflexivity.
Qed.

Lemma station_weq w w' l : weq w w' -> station w' l = station w l.
Proof. intros Q. unfold station. rewrite (weq_get _ _ Q). reflexivity. Qed.

Lemma write_loop_spec fmt ls : In fmt text_formats -> forall w w0 old cur, ints_ok w0 -> weq w0 w ->
  (forall l, In l (cur ++ ls) -> is_hit w0 l) ->
  exists w', write_loop "mm" fmt w old cur ls = (w', flat_map (lines_at fmt w0) (cur ++ ls)) /\ weq w0 w'.
Proof.
  intros F. induction ls as [|l r IH]; intros w w0 old cur W Q H; cbn [write_loop].
  - rewrite app_nil_r in *. apply write_group_spec; auto.
  - destruct (match old with None => true | Some o => Z.eqb (station w l) (station w o) end).
    + destruct (IH w w0 (Some l) (cur ++ [l]) W Q) as (w' & E & Q').
      { rewrite <- app_assoc. exact H. }
      rewrite <- app_assoc in E. eauto.
    + destruct (write_group_spec fmt cur F w w0 W Q) as (w1 & E1 & Q1).
      { intros k Hk. apply H, in_or_app. auto. }
      rewrite E1.
      destruct (IH w1 w0 (Some l) [l] W Q1) as (w2 & E2 & Q2).
      { intros k Hk. apply H, in_or_app. auto. }
      rewrite E2. exists w2. split; auto. f_equal. symmetry.
      apply (flat_map_app (lines_at fmt w0) cur (l :: r)).
Qed.

(** ---- headers ---- *)
Lemma append_assoc (a b c : string) : ((a ++ b) ++ c = a ++ (b ++ c))%string.
Proof. induction a; simpl; congruence. Qed.
Lemma append_nil_r (a : string) : (a ++ "" = a)%string.
Proof. induction a; simpl; congruence. Qed.

Lemma append_nil_eq (a b : string) : String.eqb (a ++ b) "" = (String.eqb a "" && String.eqb b "")%bool.
Proof. destruct a; reflexivity. Qed.

Lemma lines_from_line cur s rest : has_newline s = false ->
  lines_from cur (s ++ String (ascii_of_nat 10) rest) = (cur ++ s)%string :: lines_from "" rest.
Proof.
  revert cur. induction s as [|c s IH]; intros cur H.
  - simpl. rewrite append_nil_r. reflexivity.
  - change (has_newline (String c s)) with (Ascii.eqb c (ascii_of_nat 10) || has_newline s)%bool in H.
    apply orb_false_elim in H. destruct H as [H1 H2].
    change (lines_from cur (String c s ++ String (ascii_of_nat 10) rest))
      with (if Ascii.eqb c (ascii_of_nat 10) then cur :: lines_from "" (s ++ String (ascii_of_nat 10) rest)
            else lines_from (cur ++ String c "") (s ++ String (ascii_of_nat 10) rest)).
    rewrite H1. rewrite IH by auto. rewrite append_assoc. reflexivity.
Qed.

Lemma header_lines a b comment : has_newline (a ++ comment) = false ->
  lines_of (a ++ comment ++ newline ++ b) = (a ++ comment)%string :: lines_of b.
Proof.
  intros H. unfold lines_of, newline. cbn [append]. rewrite <- append_assoc.
  apply (lines_from_line "" (a ++ comment) b H).
Qed.
Lemma newline_append a b : has_newline (a ++ b) = (has_newline a || has_newline b)%bool.
Proof.
  induction a as [|c a IH]; [reflexivity|].
  change (has_newline (String c a ++ b)) with (Ascii.eqb c (ascii_of_nat 10) || has_newline (a ++ b))%bool.
  rewrite IH. apply orb_assoc.
Qed.

Lemma header_spec fmt comment : In fmt text_formats -> has_newline (the_comment comment) = false ->
  exists hdr, file_header fmt comment = Some hdr /\
    (is_g4bl fmt = false ->
       assoc number_of_header_lines fmt = Some (List.length (lines_of hdr))) /\
    (is_g4bl fmt = true -> assoc number_of_header_lines fmt = Some 0%nat /\
       forall s, In s (lines_of hdr) -> comment_line (LText s) = true).
Proof.
  intros F H. each_format F; unfold file_header; eexists; (split; [reflexivity|]);
    fold (the_comment comment); (split; intros G; try discriminate G).
  - rewrite (header_lines "#" _ (the_comment comment)) by exact H. vm_compute. reflexivity.
  - rewrite (header_lines "" _ (the_comment comment)) by exact H. vm_compute. reflexivity.
  - split; [reflexivity|]. rewrite (header_lines "#BLTrackFile " _ (the_comment comment)).
    + intros s [<-|I]; [reflexivity|]. vm_compute in I. destruct I as [<-|[]]. reflexivity.
    + rewrite newline_append, H. reflexivity.
  - split; [reflexivity|]. rewrite (header_lines "#BLTrackFile " _ (the_comment comment)).
    + intros s [<-|I]; [reflexivity|]. vm_compute in I. destruct I as [<-|[]]. reflexivity.
    + rewrite newline_append, H. reflexivity.
  - reflexivity.
Qed.

(** ---- reading loops ---- *)
Definition accepted (mk : list Tok -> RRes) (test : RHit -> bool) (l : Line) : list RHit :=
  filter test (hit_of (mk (tokens l))).

Lemma accepted_ok mk test l h : mk (tokens l) = RHitOk h ->
  accepted mk test l = if test h then [h] else [].
Proof. intros E. unfold accepted. rewrite E. reflexivity. Qed.

Lemma at_most_all {A} n (l : list A) : (n < 0)%Z -> at_most n l = l.
Proof. intros H. unfold at_most. apply Z.ltb_lt in H. rewrite H. reflexivity. Qed.
Lemma at_most_firstn {A} n (l : list A) : (0 <= n)%Z -> at_most n l = firstn (Z.to_nat n) l.
Proof. intros H. unfold at_most. apply Z.ltb_ge in H. rewrite H. reflexivity. Qed.
Lemma at_most_full {A} n (l m : list A) : Z.of_nat (List.length l) = n -> at_most n (l ++ m) = l.
Proof.
  intros H. rewrite at_most_firstn by lia. rewrite <- H, Nat2Z.id.
  rewrite firstn_app, Nat.sub_diag, firstn_all, firstn_O, app_nil_r. reflexivity.
Qed.
Lemma at_most_short {A} n (l : list A) : (Z.of_nat (List.length l) <= n)%Z -> at_most n l = l.
Proof. intros H. rewrite at_most_firstn by lia. apply firstn_all2. lia. Qed.

Definition room_left (n : Z) (k : nat) : Prop := (n < 0 \/ Z.of_nat k < n)%Z.
Lemma room_left_b n k : (Z.ltb (Z.of_nat k) n || Z.ltb n 0)%bool = true <-> room_left n k.
Proof. unfold room_left. rewrite orb_true_iff, !Z.ltb_lt. tauto. Qed.
Lemma room_left_nb n k : (Z.ltb (Z.of_nat k) n || Z.ltb n 0)%bool = false <-> ~ room_left n k.
Proof. unfold room_left. rewrite orb_false_iff, !Z.ltb_ge. lia. Qed.

(** The loop as long as nothing fails. *)
Lemma read_lines_ok mk test n ls : forall acc,
  (n < 0 \/ Z.of_nat (List.length acc) <= n)%Z ->
  (forall l, In l ls -> ~ fails (mk (tokens l))) ->
  exists used rest, ls = used ++ rest /\
    read_lines mk test n acc ls = (inr (at_most n (acc ++ flat_map (accepted mk test) ls)), rest) /\
    (forall a l b, used = a ++ l :: b ->
       room_left n (List.length (acc ++ flat_map (accepted mk test) a))) /\
    (rest <> [] -> ~ room_left n (List.length (acc ++ flat_map (accepted mk test) used))).
Proof.
  induction ls as [|l r IH]; intros acc N H.
  - exists [], []. split; auto. split; [|split].
    + simpl. rewrite app_nil_r. unfold at_most. destruct (Z.ltb_spec n 0); auto.
      rewrite firstn_all2 by lia. reflexivity.
    + intros a l b E. destruct a; discriminate.
    + congruence.
  - cbn [read_lines]. destruct (_ || _)%bool eqn:C.
    + apply room_left_b in C. 
      assert (Step : forall acc', (n < 0 \/ Z.of_nat (List.length acc') <= n)%Z ->
         acc' = acc ++ accepted mk test l ->
         exists used rest, l :: r = used ++ rest /\
           read_lines mk test n acc' r = (inr (at_most n (acc ++ flat_map (accepted mk test) (l :: r))), rest) /\
           (forall a l0 b, used = a ++ l0 :: b ->
             room_left n (List.length (acc ++ flat_map (accepted mk test) a))) /\
           (rest <> [] -> ~ room_left n (List.length (acc ++ flat_map (accepted mk test) used)))).
      { intros acc' N' ->. destruct (IH _ N' (fun k Hk => H k (or_intror Hk)))
          as (used & rest & E1 & E2 & E3 & E4).
        exists (l :: used), rest. split; [simpl; congruence|]. split; [|split].
        - rewrite E2. simpl. rewrite app_assoc. reflexivity.
        - intros a l0 b E. destruct a as [|a0 a]; simpl in E; inversion E; subst.
          + simpl. rewrite app_nil_r. exact C.
          + simpl. rewrite app_assoc. eapply E3. reflexivity.
        - intros Hr. simpl. rewrite app_assoc. auto. }
      destruct (mk (tokens l)) as [h| |e] eqn:M.
      * apply Step; rewrite ?(accepted_ok _ _ _ _ M); destruct (test h); auto.
        -- rewrite app_length. simpl. unfold room_left in C. lia.
        -- rewrite app_nil_r. reflexivity.
      * apply Step; auto. unfold accepted. rewrite M. simpl. rewrite app_nil_r. reflexivity.
      * destruct (H l (or_introl eq_refl)). rewrite M. exists e. reflexivity.
    + apply room_left_nb in C. exists [], (l :: r). split; auto. split; [|split].
      * rewrite at_most_full; auto. unfold room_left in C. lia.
      * intros a l0 b E. destruct a; discriminate.
      * intros _. simpl. rewrite app_nil_r. exact C.
Qed.

(** The loop up to the first line that fails. *)
Lemma read_lines_fail mk test n pre l post e : forall acc,
  (n < 0 \/ Z.of_nat (List.length acc) <= n)%Z ->
  (forall k, In k pre -> ~ fails (mk (tokens k))) -> mk (tokens l) = RRaise e ->
  (room_left n (List.length (acc ++ flat_map (accepted mk test) pre)) ->
     fst (read_lines mk test n acc (pre ++ l :: post)) = inl e) /\
  (~ room_left n (List.length (acc ++ flat_map (accepted mk test) pre)) ->
     fst (read_lines mk test n acc (pre ++ l :: post)) =
       inr (at_most n (acc ++ flat_map (accepted mk test) pre))).
Proof.
  induction pre as [|k r IH]; intros acc N H E.
  - cbn [app flat_map]. rewrite app_nil_r. cbn [read_lines].
    destruct (_ || _)%bool eqn:C; [apply room_left_b in C|apply room_left_nb in C].
    + rewrite E. split; auto. contradiction.
    + split; [contradiction|]. intros _. cbn [fst]. f_equal.
      rewrite <- (app_nil_r acc) at 2. rewrite at_most_full; auto. unfold room_left in C. lia.
  - cbn [app read_lines]. destruct (_ || _)%bool eqn:C.
    + apply room_left_b in C.
      assert (Step : forall acc', (n < 0 \/ Z.of_nat (List.length acc') <= n)%Z ->
         acc' = acc ++ accepted mk test k ->
         (room_left n (List.length (acc ++ flat_map (accepted mk test) (k :: r))) ->
            fst (read_lines mk test n acc' (r ++ l :: post)) = inl e) /\
         (~ room_left n (List.length (acc ++ flat_map (accepted mk test) (k :: r))) ->
            fst (read_lines mk test n acc' (r ++ l :: post)) =
              inr (at_most n (acc ++ flat_map (accepted mk test) (k :: r))))).
      { intros acc' N' ->. simpl. rewrite app_assoc.
        apply IH; auto. intros j Hj. apply H. right; auto. }
      destruct (mk (tokens k)) as [h| |e'] eqn:M.
      * apply Step; rewrite ?(accepted_ok _ _ _ _ M); destruct (test h); auto.
        -- rewrite app_length. simpl. unfold room_left in C. lia.
        -- rewrite app_nil_r. reflexivity.
      * apply Step; auto. unfold accepted. rewrite M. simpl. rewrite app_nil_r. reflexivity.
      * destruct (H k (or_introl eq_refl)). rewrite M. exists e'. reflexivity.
    + apply room_left_nb in C. cbn [fst]. split.
      * intros R. exfalso. apply C. unfold room_left in *. rewrite app_length in R. lia.
      * intros _. f_equal. rewrite at_most_full; auto. unfold room_left in C. lia.
Qed.

Lemma comment_same l : comment_line l = is_comment l.
Proof.
  destruct l as [[|c s]|[|t r]]; try reflexivity.
  unfold comment_line, is_comment. cbn [String.eqb orb String.prefix].
  destruct (ascii_dec "#" c) as [<-|N].
  - cbn. destruct s; reflexivity.
  - destruct (Ascii.eqb_spec c "#"); [congruence|reflexivity].
Qed.

Lemma setup_data fmt f : In fmt text_formats -> setup_file fmt f = inr (data_lines fmt f).
Proof.
  intros F. each_format F; unfold setup_file, data_lines; cbn -[skipn]; try reflexivity;
    change (skipn 0 f) with f; f_equal; apply filter_ext; intros l; rewrite comment_same; reflexivity.
Qed.

Lemma accepted_hits mk test ls : flat_map (accepted mk test) ls = hits_in mk test ls.
Proof. reflexivity. Qed.

Lemma read_files_ok fmt c test n files : In fmt text_formats -> forall acc,
  (n < 0 \/ Z.of_nat (List.length acc) <= n)%Z ->
  (forall l, In l (flat_map (data_lines fmt) files) -> ~ fails (read_hit fmt c (tokens l))) ->
  read_files fmt c test n acc files =
    inr (at_most n (acc ++ hits_in (read_hit fmt c) test (flat_map (data_lines fmt) files))).
Proof.
  intros F. induction files as [|f r IH]; intros acc N H; cbn [read_files].
  - simpl. rewrite app_nil_r. f_equal. unfold at_most. destruct (Z.ltb_spec n 0); auto.
    rewrite firstn_all2 by lia. reflexivity.
  - rewrite setup_data by auto. cbn [flat_map] in H.
    destruct (read_lines_ok (read_hit fmt c) test n (data_lines fmt f) acc N)
      as (used & rest & _ & E2 & _ & _).
    { intros l Hl. apply H, in_or_app. auto. }
    rewrite E2. rewrite IH.
    + f_equal. rewrite accepted_hits. cbn [flat_map]. unfold hits_in at 3. rewrite flat_map_app.
      fold (hits_in (read_hit fmt c) test (data_lines fmt f)).
      fold (hits_in (read_hit fmt c) test (flat_map (data_lines fmt) r)).
      rewrite app_assoc. unfold at_most at 1 2 3. destruct (Z.ltb_spec n 0); auto.
      set (a := acc ++ hits_in (read_hit fmt c) test (data_lines fmt f)).
      set (b := hits_in (read_hit fmt c) test (flat_map (data_lines fmt) r)).
      rewrite !firstn_app. rewrite firstn_firstn, Nat.min_id. f_equal.
      rewrite firstn_length. destruct (Nat.le_gt_cases (List.length a) (Z.to_nat n)).
      * rewrite Nat.min_r by auto. reflexivity.
      * rewrite Nat.min_l by lia. replace (Z.to_nat n - List.length a)%nat with 0%nat by lia.
        rewrite Nat.sub_diag. reflexivity.
    + unfold at_most. destruct (Z.ltb_spec n 0); auto. right. rewrite firstn_length. lia.
    + intros l Hl. apply H, in_or_app. auto.
Qed.

Lemma hits_in_app mk test a b : hits_in mk test (a ++ b) = hits_in mk test a ++ hits_in mk test b.
Proof. apply flat_map_app. Qed.

Lemma at_most_at_most {A} n (a b : list A) : at_most n (at_most n a ++ b) = at_most n (a ++ b).
Proof.
  unfold at_most. destruct (Z.ltb_spec n 0); auto.
  rewrite !firstn_app. rewrite firstn_firstn, Nat.min_id. f_equal.
  rewrite firstn_length. destruct (Nat.le_gt_cases (List.length a) (Z.to_nat n)).
  - rewrite Nat.min_r by auto. reflexivity.
  - rewrite Nat.min_l by lia. replace (Z.to_nat n - List.length a)%nat with 0%nat by lia.
    rewrite Nat.sub_diag. reflexivity.
Qed.

Lemma at_most_len {A} n (a : list A) : (n < 0 \/ Z.of_nat (List.length (at_most n a)) <= n)%Z.
Proof. unfold at_most. destruct (Z.ltb_spec n 0); auto. right. rewrite firstn_length. lia. Qed.

(** Full bunch: the remaining files are opened but not read. *)
Lemma read_files_full fmt c test n acc files : In fmt text_formats ->
  Z.of_nat (List.length acc) = n -> read_files fmt c test n acc files = inr acc.
Proof.
  intros F N. induction files as [|f r IH]; cbn [read_files]; auto.
  rewrite setup_data by auto.
  assert (E : fst (read_lines (read_hit fmt c) test n acc (data_lines fmt f)) = inr acc).
  { destruct (data_lines fmt f); cbn [read_lines]; auto.
    destruct (_ || _)%bool eqn:C; auto. apply room_left_b in C. unfold room_left in C. lia. }
  destruct (read_lines _ _ _ _ _) as [res rest]. cbn [fst] in E. subst. exact IH.
Qed.

Lemma read_files_fail fmt c test n fs1 f fs2 pre l post e : In fmt text_formats -> forall acc,
  (n < 0 \/ Z.of_nat (List.length acc) <= n)%Z ->
  data_lines fmt f = pre ++ l :: post ->
  (forall k, In k (flat_map (data_lines fmt) fs1 ++ pre) -> ~ fails (read_hit fmt c (tokens k))) ->
  read_hit fmt c (tokens l) = RRaise e ->
  let before := acc ++ hits_in (read_hit fmt c) test (flat_map (data_lines fmt) fs1 ++ pre) in
  (room_left n (List.length before) ->
     read_files fmt c test n acc (fs1 ++ f :: fs2) = inl e) /\
  (~ room_left n (List.length before) ->
     read_files fmt c test n acc (fs1 ++ f :: fs2) = inr (at_most n before)).
Proof.
  intros F. induction fs1 as [|g r IH]; intros acc N D H E.
  - cbn [flat_map app] in *. cbn [read_files]. rewrite setup_data by auto. rewrite D.
    destruct (read_lines_fail (read_hit fmt c) test n pre l post e acc N H E) as [A B].
    rewrite accepted_hits in *.
    destruct (read_lines _ _ _ _ _) as [res rest]. cbn [fst] in *. split; intros R.
    + rewrite (A R). reflexivity.
    + rewrite (B R). apply read_files_full; auto.
      unfold at_most. unfold room_left in R. destruct (Z.ltb_spec n 0); [lia|].
      rewrite firstn_length. lia.
  - cbn [flat_map app] in *. cbn [read_files]. rewrite setup_data by auto.
    destruct (read_lines_ok (read_hit fmt c) test n (data_lines fmt g) acc N)
      as (used & rest & _ & E2 & _ & _).
    { intros k Hk. apply H. rewrite <- app_assoc. apply in_or_app. auto. }
    rewrite E2. rewrite accepted_hits.
    set (a := acc ++ hits_in (read_hit fmt c) test (data_lines fmt g)) in *.
    specialize (IH (at_most n a) (at_most_len n a) D).
    destruct IH as [A B].
    { intros k Hk. apply H. rewrite <- app_assoc. apply in_or_app. auto. }
    { exact E. }
    rewrite <- app_assoc. rewrite hits_in_app. rewrite app_assoc. fold a.
    set (b := hits_in (read_hit fmt c) test (flat_map (data_lines fmt) r ++ pre)) in *.
    assert (RL : room_left n (List.length (at_most n a ++ b)) <-> room_left n (List.length (a ++ b))).
    { unfold room_left, at_most. destruct (Z.ltb_spec n 0); [tauto|].
      rewrite !app_length, firstn_length. lia. }
    rewrite at_most_at_most in B. split; intros R.
    + apply A, RL, R.
    + apply B. intros R'. apply R, RL, R'.
Qed.

(** ---- which lines give a hit ---- *)
Lemma read_formatted_bad us cols c ts :
  read_formatted us cols c ts = RBad <-> List.length ts <> List.length cols.
Proof.
  unfold read_formatted. destruct (Nat.eqb_spec (List.length ts) (List.length cols)); cbn [negb].
  - destruct (read_columns us cols ts (hit_new, c)) as [s [e0|]]; split; intros; try discriminate; contradiction.
  - split; auto.
Qed.

Lemma columns_cols fmt : In fmt text_formats -> map fst (columns fmt) = fmt_cols fmt.
Proof. intros F. each_format F; reflexivity. Qed.

Lemma read_hit_bad fmt c ts : In fmt text_formats ->
  (read_hit fmt c ts = RBad <-> List.length ts <> List.length (columns fmt)).
Proof.
  intros F. destruct (format_facts fmt F) as (F1 & F2 & F3 & F4 & F5 & F6 & F7).
  rewrite <- (map_length fst (columns fmt)), columns_cols by auto.
  rewrite <- (read_formatted_bad (fmt_units fmt) (fmt_cols fmt) c ts).
  unfold read_hit. rewrite F2, F3, F4.
  destruct (read_formatted (fmt_units fmt) (fmt_cols fmt) c ts) as [h| |e]; try tauto.
  - split; [|discriminate].
    destruct (translate_if (contains fmt "icool") icool_pid_to_pdg (h, c)) as [s1 [e1|]]; [discriminate|].
    destruct (translate_if (contains fmt "mars") mars_pid_to_pdg s1) as [s2 [e2|]]; discriminate.
Qed.

(** ---- the hit read back, in terms of the API ---- *)
Lemma stored_iname k : In k stored_ints -> exists i, canonical k = iname i /\
  forall s : PSt, py_get s k = inr (PInt (h_int (fst s) i)).
Proof.
  intros H. simpl in H.
  repeat (destruct H as [<-|H]; [first
    [ exists Ispill; split; reflexivity | exists Ievent; split; reflexivity
    | exists Iparticle; split; reflexivity | exists Istation; split; reflexivity
    | exists Istatus; split; reflexivity | exists Ipid; split; reflexivity ]|]).
  contradiction.
Qed.

Lemma carried_int fmt k i : In k stored_ints -> canonical k = iname i -> carried fmt k = carried fmt (iname i).
Proof.
  intros H E.
  assert (T : String.eqb k "t" = false /\ String.eqb (iname i) "t" = false /\ canonical (iname i) = iname i).
  { split; [|destruct i; split; reflexivity].
    simpl in H. repeat (destruct H as [<-|H]; [reflexivity|]). contradiction. }
  destruct T as (T1 & T2 & T3). unfold carried. rewrite T1, T2, E, T3. reflexivity.
Qed.

Lemma restored_back fmt (h h' : RHit) (c c' : RCtx) : In fmt text_formats ->
  restored fmt h h' -> reads_back fmt (h, c) (h', c').
Proof.
  intros F [D I]. exists (h_int h Ipid). split; [reflexivity|].
  change "mass" with (fname Vmass) at 1. change "charge" with (fname Vcharge) at 1.
  rewrite !get_fname. cbn [fst].
  split; [rewrite D; reflexivity|]. split; [rewrite D; reflexivity|]. split.
  - exists (h_dbl h' Venergy), (h_dbl h' Vpx), (h_dbl h' Vpy), (h_dbl h' Vpz).
    split; [reflexivity|]. split; [reflexivity|]. split; [reflexivity|]. split; [reflexivity|].
    assert (P : h_dbl h' Vpx = h_dbl h Vpx /\ h_dbl h' Vpy = h_dbl h Vpy /\ h_dbl h' Vpz = h_dbl h Vpz).
    { rewrite !D. rewrite !carried_p by (auto; simpl; tauto). repeat split. }
    destruct P as (P1 & P2 & P3). rewrite P1, P2, P3, D.
    unfold energy_of. split; [apply sqrt_pos|]. apply sqrt_sqrt. toR.
    pose proof (Rle_0_sqr (mass_for (h_int h Ipid))). pose proof (Rle_0_sqr (h_dbl h Vpx)).
    pose proof (Rle_0_sqr (h_dbl h Vpy)). pose proof (Rle_0_sqr (h_dbl h Vpz)). unfold Rsqr in *. 
    cbn in *. lra.
  - intros k [S|S] N1 N2 N3.
    + destruct (stored_fname k S) as [v ->]. rewrite !get_fname. cbn [fst]. rewrite D.
      destruct v; try (contradiction N1; reflexivity); try (contradiction N2; reflexivity);
        try (contradiction N3; reflexivity); destruct (carried _ _); reflexivity.
    + destruct (stored_iname k S) as (i & E1 & E2). rewrite !E2. cbn [fst].
      rewrite (carried_int fmt k i S E1), I. destruct (carried _ _); destruct i; reflexivity.
Qed.

Lemma write_then_read fmt (h : RHit) (c c' : RCtx) : In fmt text_formats ->
  (forall i, int32 (h_int h i)) -> writable fmt (h_int h Ipid) ->
  exists ts h2 h', write_hit "mm" fmt (h, c) = ((h2, c), inr ts) /\ same h h2 /\
    Forall2 (column_holds fmt (h, c)) (columns fmt) ts /\
    read_hit fmt c' ts = RHitOk h' /\ restored fmt h h'.
Proof.
  intros F W [n I].
  destruct (write_columns_spec fmt h c n F I) as (ts & E1 & E2).
  destruct (write_read_columns fmt h c c' n F W I) as (ts' & h1 & E3 & E4 & E5).
  rewrite E1 in E3. injection E3 as <-.
  destruct (write_hit_spec fmt h c n ts F (W Ipid) I E1) as (h2 & E6 & E7).
  destruct (read_hit_spec fmt h h1 c' n ts F (W Ipid) I E4 E5) as (h' & E8 & E9).
  exists ts, h2, h'. auto.
Qed.
