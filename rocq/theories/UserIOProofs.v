(** Proofs about user defined text formats. *)
From Coq Require Import Reals ZArith String List Bool Lia Lra.
From Verif Require Import Num WeightModel HitcoreModel HitcoreSpec HitcoreProofs PyLibModel HitPyModel HitPySpec HitPyProofs TableModel
  BunchModel BunchSpec BunchProofs BunchNumModel IOModel IOSpec IOProofs UserIOModel UserIOSpec QueryProofs.
Import ListNotations.
Open Scope string_scope.
Open Scope list_scope.
Open Scope R_scope.

Definition dbl_col (cols : list string) (v : DblVar) : bool := existsb (fun c => String.eqb c (fname v)) cols.
Definition int_col (cols : list string) (i : IntVar) : bool := existsb (fun c => String.eqb (canonical c) (iname i)) cols.

Lemma float_types k : In k stored_floats -> is_in k int_vars = false /\ is_in k float_vars = true /\ k <> "".
Proof.
  intros H. simpl in H. repeat (destruct H as [<- | H]; [repeat split; try reflexivity; discriminate|]). contradiction.
Qed.
Lemma int_types k : In k format_ints -> is_in k int_vars = true /\ k <> "" /\ exists i, canonical k = iname i /\
  assoc set_dbl_map k = None /\ assoc set_int_map k = Some i /\ (forall s : PSt, py_get s k = inr (PInt (h_int (fst s) i))) /\ i <> Ispill.
Proof.
  intros H. simpl in H.
  repeat (destruct H as [<- | H]; [split; [reflexivity|split; [discriminate|]]; first
    [ exists Ievent; split; [reflexivity|]; split; [reflexivity|]; split; [reflexivity|]; split; [reflexivity|discriminate]
    | exists Iparticle; split; [reflexivity|]; split; [reflexivity|]; split; [reflexivity|]; split; [reflexivity|discriminate]
    | exists Istation; split; [reflexivity|]; split; [reflexivity|]; split; [reflexivity|]; split; [reflexivity|discriminate]
    | exists Istatus; split; [reflexivity|]; split; [reflexivity|]; split; [reflexivity|]; split; [reflexivity|discriminate]
    | exists Ipid; split; [reflexivity|]; split; [reflexivity|]; split; [reflexivity|]; split; [reflexivity|discriminate]]|]).
  contradiction.
Qed.
Lemma float_not_int v i : canonical (fname v) <> iname i.
Proof. destruct v, i; discriminate. Qed.
Lemma int_not_float k v : In k format_ints -> String.eqb k (fname v) = false.
Proof. intros H. simpl in H. repeat (destruct H as [<- | H]; [destruct v; reflexivity|]). contradiction. Qed.

Lemma undo_scale (x f : R) : f <> 0 -> x / f * f = x.
Proof. intros. field. auto. Qed.

(** Writing a line and reading it into any hit g. *)
Lemma write_read_user cols us (h : RHit) (c : RCtx) : plain_format cols -> plain_units cols us ->
  (forall i, int32 (h_int h i)) ->
  exists ts, write_columns (h, c) us cols = inr ts /\ List.length ts = List.length cols /\
    forall (g : RHit) (c' : RCtx), exists g', read_columns us cols ts (g, c') = ((g', c'), None) /\
      (forall v, h_dbl g' v = if dbl_col cols v then h_dbl h v else h_dbl g v) /\
      (forall i, h_int g' i = if int_col cols i then h_int h i else h_int g i).
Proof.
  intros F U W. induction cols as [|k cols IH].
  - exists []. split; [reflexivity|]. split; [reflexivity|]. intros g c'. exists g. repeat split.
  - destruct IH as (ts & T1 & T2 & T3).
    { intros k' I. apply F. right; auto. }
    { intros k' I. apply U. right; auto. }
    cbn [write_columns]. destruct (F k (or_introl eq_refl)) as [-> | [S1 | S1]].
    + exists (TInt 0 :: ts). change (write_column (h, c) us "") with (@inr IOErr Tok (TInt 0)). rewrite T1.
      split; [reflexivity|]. split; [cbn; auto|]. intros g c'. destruct (T3 g c') as (g' & G1 & G2 & G3).
      exists g'. split; [exact G1|]. split.
      * intros v. rewrite G2. unfold dbl_col. cbn [existsb]. replace (String.eqb "" (fname v)) with false by (destruct v; reflexivity). reflexivity.
      * intros i. rewrite G3. unfold int_col. cbn [existsb]. replace (String.eqb (canonical "") (iname i)) with false by (destruct i; reflexivity). reflexivity.
    + destruct (float_types k S1) as (A1 & A2 & A3). destruct (stored_fname k S1) as [d ->].
      destruct (U (fname d) (or_introl eq_refl) A3) as (u & f & U1 & U2 & _). pose proof (unit_positive _ _ U2) as Pf.
      exists (TNum (h_dbl h d / f) :: ts).
      assert (Wc : write_column (h, c) us (fname d) = inr (TNum (h_dbl h d / f))).
      { unfold write_column. rewrite (proj2 (String.eqb_neq _ _) A3), get_fname, U1, U2. cbn [as_real fst]. rewrite A1, A2. reflexivity. }
      rewrite Wc, T1. split; [reflexivity|]. split; [cbn; auto|]. intros g c'.
      destruct (T3 (hit_set_dbl g d (h_dbl h d)) c') as (g' & G1 & G2 & G3). exists g'. split.
      { cbn [read_columns]. rewrite (proj2 (String.eqb_neq _ _) A3). unfold read_value. rewrite A1, A2, U1, U2.
        rewrite (undo_scale (h_dbl h d) f) by lra.
        rewrite (pset_dbl g c' (fname d) d (h_dbl h d)) by apply fname_set. exact G1. }
      split.
      * intros v. rewrite G2. unfold dbl_col. cbn [existsb]. fold (dbl_col cols v).
        destruct (String.eqb_spec (fname d) (fname v)) as [E|N].
        -- apply fname_inj in E. subst v. cbn [orb]. destruct (dbl_col cols d); auto.
           cbn. destruct d; reflexivity.
        -- cbn [orb]. destruct (dbl_col cols v); auto. destruct d, v; try reflexivity; congruence.
      * intros i. rewrite G3. unfold int_col. cbn [existsb]. rewrite (proj2 (String.eqb_neq _ _) (float_not_int d i)). reflexivity.
    + destruct (int_types k S1) as (A1 & A3 & j & J1 & J2 & J3 & J4 & J5).
      destruct (U k (or_introl eq_refl) A3) as (u & f & U1 & U2 & U3). specialize (U3 S1). subst f.
      exists (TInt (h_int h j) :: ts).
      assert (Wc : write_column (h, c) us k = inr (TInt (h_int h j))).
      { unfold write_column. rewrite (proj2 (String.eqb_neq _ _) A3), J4, U1, U2. cbn [as_real fst]. rewrite A1, trunc_int. reflexivity. }
      rewrite Wc, T1. split; [reflexivity|]. split; [cbn; auto|]. intros g c'.
      destruct (T3 (hit_set_int g j (h_int h j)) c') as (g' & G1 & G2 & G3). exists g'. split.
      { cbn [read_columns]. rewrite (proj2 (String.eqb_neq _ _) A3). unfold read_value. rewrite A1.
        rewrite (pset_int g c' k j (h_int h j)) by auto. exact G1. }
      split.
      * intros v. rewrite G2. unfold dbl_col. cbn [existsb]. rewrite (int_not_float k v S1). reflexivity.
      * intros i. rewrite G3. unfold int_col. cbn [existsb]. fold (int_col cols i). rewrite J1.
        destruct (String.eqb_spec (iname j) (iname i)) as [E|N].
        -- assert (j = i) by (destruct i, j; try reflexivity; discriminate). subst i. cbn [orb]. destruct (int_col cols j); auto.
           cbn. destruct j; reflexivity.
        -- cbn [orb]. destruct (int_col cols i); auto. destruct i, j; try reflexivity; congruence.
Qed.

Lemma plain_ok cols us : plain_format cols -> plain_units cols us -> user_format_ok cols us = true.
Proof.
  intros F U. unfold user_format_ok. apply forallb_forall. intros k I.
  destruct (F k I) as [-> | [S1 | S1]]; [reflexivity| |].
  - destruct (float_types k S1) as (A1 & A2 & A3). destruct (U k I A3) as (u & f & U1 & U2 & _).
    replace (is_in k settable) with true.
    2: { symmetry. simpl in S1. repeat (destruct S1 as [<- | S1]; [reflexivity|]). contradiction. }
    rewrite A1, A2, U1. cbn [andb orb]. apply orb_true_iff. right.
    unfold is_in. apply existsb_exists. exists u. split; [|apply String.eqb_refl].
    clear - U2. induction units as [|[k' v] l IHl]; [discriminate|]. cbn [assoc] in U2. cbn [map fst].
    destruct (String.eqb_spec k' u); [left; auto|right; auto].
  - simpl in S1. repeat (destruct S1 as [<- | S1]; [reflexivity|]). contradiction.
Qed.

Lemma in_format_dbl cols v : plain_format cols -> in_format cols (fname v) = dbl_col cols v.
Proof.
  intros F. unfold in_format, dbl_col. apply eq_true_iff_eq. rewrite !existsb_exists.
  assert (C : canonical (fname v) = fname v) by (destruct v; reflexivity). rewrite C.
  split; intros (k & I & E); exists k; (split; [auto|]); apply String.eqb_eq in E; apply String.eqb_eq.
  - destruct (F k I) as [-> | [S1 | S1]].
    + destruct v; discriminate.
    + destruct (stored_fname k S1) as [d ->]. rewrite <- E. destruct d; reflexivity.
    + destruct (int_types k S1) as (_ & _ & i & Ei & _). rewrite Ei in E. destruct i, v; discriminate.
  - subst k. auto.
Qed.
Lemma in_format_int cols k i : canonical k = iname i -> in_format cols k = int_col cols i.
Proof. intros E. unfold in_format, int_col. rewrite E. reflexivity. Qed.
Lemma is_in_dbl cols v : is_in (fname v) cols = dbl_col cols v.
Proof. unfold is_in, dbl_col. induction cols as [|k l IH]; cbn [existsb]; auto. rewrite IH, String.eqb_sym. reflexivity. Qed.

(** Reading a line that was written. *)
Lemma read_user_written cols us (h : RHit) (c c' : RCtx) ts : plain_format cols -> plain_units cols us ->
  (forall i, int32 (h_int h i)) -> write_columns (h, c) us cols = inr ts ->
  (particle_known cols (h_int h Ipid) ->
     exists h', read_user_hit cols us "" c' ts = RHitOk h' /\ user_reads_back cols (h, c) (h', c')) /\
  (~ particle_known cols (h_int h Ipid) -> read_user_hit cols us "" c' ts = RRaise IKeyError).
Proof.
  intros F U W Wr. destruct (write_read_user cols us h c F U W) as (ts' & T1 & T2 & T3).
  assert (ts' = ts) by congruence. subst ts'.
  destruct (T3 hit_new c') as (g & G1 & G2 & G3).
  assert (Rf : read_formatted us cols c' ts = RHitOk g).
  { unfold read_formatted. rewrite T2, Nat.eqb_refl. cbn [negb]. rewrite G1. reflexivity. }
  assert (Pg : pid_of g = particle_seen cols (h_int h Ipid)).
  { unfold pid_of, particle_seen. rewrite G3, (in_format_int cols "pid" Ipid) by reflexivity. destruct (int_col cols Ipid); reflexivity. }
  assert (Mi : is_in "mass" cols = in_format cols "mass") by (change "mass" with (fname Vmass); rewrite is_in_dbl, in_format_dbl; auto).
  assert (Ci : is_in "charge" cols = in_format cols "charge") by (change "charge" with (fname Vcharge); rewrite is_in_dbl, in_format_dbl; auto).
  set (pid := h_int h Ipid) in *. set (q := particle_seen cols pid) in *.
  assert (Back : forall h', (forall v, h_dbl h' v = if dbl_col cols v then h_dbl h v else
       match v with Vmass => mass_for q | Vcharge => charge_for q | _ => h_dbl (@hit_new RNum) v end) ->
     (forall i, h_int h' i = if int_col cols i then h_int h i else h_int (@hit_new RNum) i) ->
     user_reads_back cols (h, c) (h', c')).
  { intros h' D I. exists pid. split; [reflexivity|]. fold q. intros k [S1 | S1].
    - destruct (stored_fname k S1) as [v ->]. rewrite !get_fname, (in_format_dbl cols v F). cbn [fst snd]. rewrite D.
      destruct (dbl_col cols v); auto. destruct v; reflexivity.
    - destruct (stored_iname k S1) as (i & E1 & E2). rewrite !E2, (in_format_int cols k i E1). cbn [fst snd]. rewrite I.
      destruct (int_col cols i); auto.
      assert (N : String.eqb k "mass" = false /\ String.eqb k "charge" = false).
      { clear - S1. simpl in S1. repeat (destruct S1 as [<- | S1]; [split; reflexivity|]). contradiction. }
      destruct N as (-> & ->). reflexivity. }
  unfold read_user_hit. rewrite (plain_ok cols us F U), Rf. cbn [negb]. rewrite Mi, Ci, Pg.
  unfold particle_known. fold q.
  assert (Dm : dbl_col cols Vmass = in_format cols "mass") by (symmetry; apply (in_format_dbl cols Vmass F)).
  assert (Dc : dbl_col cols Vcharge = in_format cols "charge") by (symmetry; apply (in_format_dbl cols Vcharge F)).
  assert (MS : forall x : RHit, mass_shell x "" = (x, MsNone)).
  { reflexivity. }
  destruct (in_format cols "mass") eqn:Em.
  - rewrite MS. cbn [ms_err].
    destruct (in_format cols "charge") eqn:Ec.
    + split; [|intros N; exfalso; apply N; split; discriminate]. intros _. exists g. split; [reflexivity|]. apply Back; auto.
      intros v. rewrite G2. destruct v; auto; rewrite ?Dm, ?Dc; auto.
    + unfold charge_for in Back. rewrite Pg. destruct (zassoc pdg_pid_to_charge q) as [z|] eqn:Z.
      * split; [|intros N; exfalso; apply N; split; [discriminate|congruence]]. intros _. eexists. split; [reflexivity|]. apply Back.
        -- intros v. unfold put. cbn. rewrite G2. destruct v; cbn; auto; rewrite ?Dm, ?Dc; auto.
        -- intros i. rewrite <- G3. reflexivity.
      * split; [intros [_ N]; exfalso; apply N; auto|]. reflexivity.
  - unfold mass_for in Back. destruct (zassoc pdg_pid_to_mass (Z.abs q)) as [m|] eqn:Zm.
    2: { split; [intros [N _]; exfalso; apply N; auto|]. reflexivity. }
    rewrite MS. cbn [ms_err].
    assert (Pp : pid_of (put g c' "mass" (PFloat (m : RNum))) = q) by (rewrite <- Pg; reflexivity).
    rewrite Pp.
    destruct (in_format cols "charge") eqn:Ec.
    + split; [|intros N; exfalso; apply N; split; [congruence|discriminate]]. intros _. eexists. split; [reflexivity|]. apply Back.
      -- intros v. unfold put. cbn. rewrite G2. destruct v; cbn; auto; rewrite ?Dm, ?Dc; auto.
      -- intros i. rewrite <- G3. reflexivity.
    + unfold charge_for in Back. destruct (zassoc pdg_pid_to_charge q) as [z|] eqn:Z.
      * split; [|intros N; exfalso; apply N; split; congruence]. intros _. eexists. split; [reflexivity|]. apply Back.
        -- intros v. unfold put. cbn. rewrite G2. destruct v; cbn; auto; rewrite ?Dm, ?Dc; auto.
        -- intros i. rewrite <- G3. reflexivity.
      * split; [intros [_ N]; exfalso; apply N; auto|]. reflexivity.
Qed.

(** ---- files ---- *)
Lemma write_holds cols us (h : RHit) (c : RCtx) ts : plain_format cols -> plain_units cols us ->
  write_columns (h, c) us cols = inr ts -> Forall2 (user_column_holds us (h, c)) cols ts.
Proof.
  revert ts. induction cols as [|k cols IH]; intros ts F U E; cbn [write_columns] in E.
  - injection E as <-. constructor.
  - destruct (write_column (h, c) us k) as [e|t] eqn:W; [discriminate|].
    destruct (write_columns (h, c) us cols) as [e|ts'] eqn:Ws; [discriminate|]. injection E as <-. constructor.
    2: { apply IH; auto; intros k' I; [apply F|apply U]; right; auto. }
    unfold write_column in W. destruct (F k (or_introl eq_refl)) as [-> | [S1 | S1]].
    + injection W as <-. left. auto.
    + destruct (float_types k S1) as (A1 & A2 & A3). destruct (stored_fname k S1) as [d ->].
      destruct (U (fname d) (or_introl eq_refl) A3) as (u & f & U1 & U2 & _). pose proof (unit_positive _ _ U2) as Pf.
      rewrite (proj2 (String.eqb_neq _ _) A3), get_fname, U1, U2 in W. cbn [as_real fst] in W. rewrite A1, A2 in W. injection W as <-.
      right; right. exists (h_dbl h d), (h_dbl h d / f), u, f. split; auto. rewrite get_fname. split; [reflexivity|]. split; auto. split; auto.
      split; auto. apply undo_scale. lra.
    + destruct (int_types k S1) as (A1 & A3 & j & J1 & J2 & J3 & J4 & J5).
      destruct (U k (or_introl eq_refl) A3) as (u & f & U1 & U2 & U3). specialize (U3 S1). subst f.
      rewrite (proj2 (String.eqb_neq _ _) A3), J4, U1, U2 in W. cbn [as_real fst] in W. rewrite A1, trunc_int in W. injection W as <-.
      right; left. exists (h_int h j). split; [exact A3|split; [apply J4|reflexivity]].
Qed.

Lemma hit_at (w : RWorld) l : is_hit w l -> exists h, w_hits w l = Some h.
Proof. unfold is_hit. destruct (w_hits w l) as [h|]; [intros _; exists h; reflexivity|intros H; destruct (H eq_refl)]. Qed.

Lemma user_written (w : RWorld) cols us ls sep : plain_format cols -> plain_units cols us -> ints_ok w ->
  (forall l, In l ls -> is_hit w l) ->
  exists tss, write_user_loop w cols us sep ls = (map (line_of sep) tss, None) /\
    Forall2 (fun l ts => exists h, w_hits w l = Some h /\ (forall i, int32 (h_int h i)) /\
       write_columns (h, cur_ctx w) us cols = inr ts /\ List.length ts = List.length cols) ls tss.
Proof.
  intros F U W. induction ls as [|l ls IH]; intros H.
  - exists []. split; [reflexivity|constructor].
  - destruct IH as (tss & T1 & T2); [intros; apply H; right; auto|].
    destruct (hit_at w l (H l (or_introl eq_refl))) as (h & Eh).
    destruct (write_read_user cols us h (cur_ctx w) F U (fun i => W l h i Eh)) as (ts & W1 & W2 & _).
    exists (ts :: tss). split.
    + cbn [write_user_loop]. unfold write_user_at. rewrite Eh, W1, T1. reflexivity.
    + constructor; auto. exists h. split; auto. split; auto. exact (fun i => W l h i Eh).
Qed.

Lemma written_read_all (w : RWorld) cols us (c' : RCtx) : plain_format cols -> plain_units cols us -> forall ls tss,
  Forall2 (fun l ts => exists h, w_hits w l = Some h /\ (forall i, int32 (h_int h i)) /\
       write_columns (h, cur_ctx w) us cols = inr ts /\ List.length ts = List.length cols) ls tss ->
  (forall l pid, In l ls -> has_pid w l pid -> particle_known cols pid) ->
  exists hs, hits_in (read_user_hit cols us "" c') (fun _ => true) (map LData tss) = hs /\
    (forall line, In line (map LData tss) -> ~ fails (read_user_hit cols us "" c' (tokens line))) /\
    Forall2 (user_reloaded w cols c') ls hs.
Proof.
  intros F U. intros ls tss H. induction H as [|l ts ls tss (h & E1 & E2 & E3 & E4) H IH]; intros K.
  - exists []. split; [reflexivity|]. split; [intros ? []|constructor].
  - destruct IH as (hs & I1 & I2 & I3); [intros; eapply K; eauto; right; auto|].
    destruct (read_user_written cols us h (cur_ctx w) c' ts F U E2 E3) as [P _].
    destruct P as (h' & P1 & P2).
    { apply (K l); [left; auto|]. unfold has_pid, hit_get. rewrite E1. reflexivity. }
    exists (h' :: hs). split; [|split].
    + unfold hits_in in *. cbn [map flat_map tokens]. rewrite P1, I1. reflexivity.
    + intros line [<-|I]; auto. cbn [tokens]. rewrite P1. intros [e D]. discriminate.
    + constructor; auto. exists (h, cur_ctx w). split; [split; auto|exact P2].
Qed.
