(** Property C89: hit factories. *)
From Coq Require Import Reals ZArith String List Bool Lia.
From Verif Require Import Num WeightModel HitcoreModel HitcoreProofs PyLibModel HitPyModel HitPyProofs TableModel
  IOModel IOSpec IOProofs IOProps FactoryModel FactorySpec FactoryProofs.
Import ListNotations.
Open Scope string_scope.
Open Scope list_scope.

(** C89.  Whatever factories and generators share a file, and in whatever order they are called, each
    request is answered from the next line of the file, and with EOFError at its end. *)
Theorem C89_lines : forall c p f ls, nth_error (opened p) f = Some ls ->
  served c ls (requests f (fw_log (frun c p))).
Proof. intros c p f ls E. destruct (frun_inv c p) as [I _]. apply (i_file _ _ _ I f ls E). Qed.
Print Assumptions C89_lines.

Lemma run_app c p o : frun c (p ++ [o]) = fstep c (frun c p) o.
Proof. unfold frun. rewrite fold_left_app. reflexivity. Qed.

(** C89.  A call of make_hit is one request, after the warnings if any; new_from_read_builtin and
    new_from_read_user too. *)
Theorem C89_make : forall c p i k f, nth_error (fw_facs (frun c p)) i = Some (k, f) ->
  exists ws r, fw_log (frun c (p ++ [OMake i])) = fw_log (frun c p) ++ map SWarn ws ++ [SRead f k r] /\
    ((f < List.length (opened p))%nat -> frun c (p ++ [OHit k f]) = frun c (p ++ [OMake i])).
Proof.
  intros c p i k f E. destruct (frun_inv c p) as [I G]. rewrite !run_app. cbn [fstep]. rewrite E.
  destruct (make c k f (frun c p)) as [w' r] eqn:M. cbn [fst].
  destruct (make_spec c k f _ w' r M) as (ws & _ & _ & _ & L & _). exists ws, r. split; [exact L|].
  intros F. rewrite <- (i_len _ _ _ I) in F. apply Nat.ltb_lt in F. rewrite F. cbn [negb].
  apply nth_error_In in E. apply (g_fac _ G) in E. destruct E as [_ ->]. reflexivity.
Qed.
Print Assumptions C89_make.

(** The formats that the constructors take. *)
Definition takes (k : Kind) : Prop :=
  match k with
  | KBuiltin fmt => In fmt text_formats
  | KUser cols us _ => forall v, In v cols -> In v settable /\ (In v int_vars \/ In v float_vars) /\
      (In v float_vars -> v <> "" -> exists u, assoc us v = Some u /\ In u (map fst units))
  end.

Lemma is_in_iff k l : is_in k l = true <-> In k l.
Proof.
  unfold is_in. rewrite existsb_exists. split.
  - intros (x & I & E). apply String.eqb_eq in E. subst. exact I.
  - intros I. exists k. split; [exact I|apply String.eqb_refl].
Qed.

Lemma kind_takes k : kind_ok k = true <-> takes k.
Proof.
  destruct k as [fmt|cols us ms]; cbn [kind_ok takes].
  - rewrite is_in_iff. reflexivity.
  - unfold user_format_ok. rewrite forallb_forall. split; intros H v I; specialize (H v I).
    + apply andb_prop in H. destruct H as [H H3]. apply andb_prop in H. destruct H as [H1 H2].
      apply is_in_iff in H1. apply orb_prop in H2. rewrite !is_in_iff in H2. split; [exact H1|]. split; [exact H2|].
      intros F N. apply is_in_iff in F. rewrite F in H3. apply String.eqb_neq in N. rewrite N in H3. cbn [negb andb orb] in H3.
      destruct (assoc us v) as [u|]; [|discriminate]. exists u. apply is_in_iff in H3. auto.
    + destruct H as (H1 & H2 & H3). apply andb_true_intro. split; [apply andb_true_intro; split; [apply is_in_iff, H1|]|].
      * apply orb_true_intro. rewrite !is_in_iff. exact H2.
      * destruct (is_in v float_vars) eqn:F; [|reflexivity]. destruct (String.eqb_spec v "") as [->|N]; [reflexivity|]. cbn [negb andb orb].
        apply is_in_iff in F. destruct (H3 F N) as (u & -> & U). apply is_in_iff, U.
Qed.

(** C89.  A constructor takes exactly the formats that are known; for others it raises KeyError.  It
    reads nothing. *)
Theorem C89_new : forall c p k f, (f < List.length (opened p))%nat ->
  let w := frun c p in let w' := frun c (p ++ [OFactory k f]) in
  fw_files w' = fw_files w /\
  (takes k -> fw_facs w' = fw_facs w ++ [(k, f)] /\ fw_log w' = fw_log w) /\
  (~ takes k -> fw_facs w' = fw_facs w /\ fw_log w' = fw_log w ++ [SKeyError k]).
Proof.
  intros c p k f F w w'. unfold w', w. rewrite run_app. cbn [fstep]. destruct (frun_inv c p) as [I _].
  rewrite <- (i_len _ _ _ I) in F. apply Nat.ltb_lt in F. rewrite F. cbn [negb].
  destruct (kind_ok k) eqn:K.
  - apply kind_takes in K. split; [reflexivity|]. split; [auto|]. intros N. contradiction.
  - split; [reflexivity|]. split; [|auto]. intros T. apply kind_takes in T. congruence.
Qed.
Print Assumptions C89_new.

(** C89.  Factories of one format on the data of a file give the hits that the Bunch reads from the
    file, in the same order. *)
Theorem C89_bunch : forall c p f fmt file hs, In fmt text_formats ->
  new_from_read_builtin fmt c (fun _ => true) (-1) [file] = inr hs ->
  nth_error (opened p) f = Some (data_lines fmt file) ->
  let rs := requests f (fw_log (frun c p)) in
  (forall k r, In (k, r) rs -> k = KBuiltin fmt) ->
  exists n, hits_of rs = firstn n hs /\ ((List.length (data_lines fmt file) <= List.length rs)%nat -> hits_of rs = hs).
Proof.
  intros c p f fmt file hs T E O rs K. pose proof (C89_lines c p f _ O) as S. fold rs in S.
  assert (D : hs = hits_in (read_hit fmt c) (fun _ => true) (data_lines fmt file)).
  { unfold new_from_read_builtin in E. destruct (is_in fmt file_types) eqn:F; [|discriminate].
    cbn [negb read_files] in E.
    destruct (setup_file fmt file) as [e|ls] eqn:Q; [discriminate|].
    rewrite (setup_data fmt file T) in Q. assert (Dl : data_lines fmt file = ls) by congruence.
    rewrite Dl. clear - E.
    destruct (read_lines (read_hit fmt c) (fun _ => true) (-1) [] ls) as [[e|acc] rest] eqn:R; [discriminate|].
    injection E as <-.
    assert (G : forall ls acc0 acc rest, read_lines (read_hit fmt c) (fun _ => true) (-1) acc0 ls = (inr acc, rest) ->
       acc = acc0 ++ hits_in (read_hit fmt c) (fun _ => true) ls).
    { clear. unfold hits_in. induction ls as [|l ls IH]; intros acc0 acc rest; cbn [read_lines flat_map].
      - intros E. injection E as <- <-. rewrite app_nil_r. reflexivity.
      - replace (Z.of_nat (List.length acc0) <? -1)%Z with false by (symmetry; apply Z.ltb_ge; lia). cbn [orb Z.ltb Z.compare].
        destruct (read_hit fmt c (tokens l)) as [h| |e]; [| |discriminate].
        + intros E. apply IH in E. rewrite E, <- app_assoc. reflexivity.
        + intros E. apply IH in E. rewrite E. reflexivity. }
    apply G in R. exact R. }
  subst hs. generalize dependent (data_lines fmt file). intros ls _ O S. clear - K S.
  induction S as [ls|l ls k r rs L S IH|k rs S IH].
  - exists 0%nat. split; [reflexivity|]. cbn [List.length]. destruct ls; [reflexivity|cbn [List.length]; lia].
  - destruct IH as (n & A & B); [intros k' r' I; apply (K k' r'); cbn; auto|].
    assert (Ek : k = KBuiltin fmt) by (apply (K k r); cbn; auto). subst k. unfold of_line in L.
    unfold hits_in in *. cbn [flat_map List.length]. destruct r as [[| |e]|h]; cbn [hits_of]; [contradiction| | |]; rewrite L; cbn [hit_of filter app].
    + exists n. split; [exact A|]. intros F. apply B. lia.
    + exists n. split; [exact A|]. intros F. apply B. lia.
    + exists (Datatypes.S n). cbn [firstn]. split; [rewrite A; reflexivity|]. intros F. rewrite B by lia. reflexivity.
  - destruct IH as (n & A & B); [intros k' r' I; apply (K k' r'); cbn; auto|]. exists n. cbn [hits_of]. split; [exact A|].
    intros _. apply B. cbn. lia.
Qed.
Print Assumptions C89_bunch.

(** C89.  Over a whole program each pid is warned about at most once, and the pids warned about are those
    of hits from builtin formats whose mass or charge is not known. *)
Theorem C89_warned : forall c p, NoDup (warned (fw_log (frun c p))) /\
  forall z, In z (warned (fw_log (frun c p))) <->
    exists f fmt h, In (SRead f (KBuiltin fmt) (inr h)) (fw_log (frun c p)) /\ pid_of h = z /\ strange z.
Proof.
  intros c p. destruct (frun_inv c p) as [[A B C D N I] _]. rewrite <- D. auto.
Qed.
Print Assumptions C89_warned.

(** C89, refuted.  A generator does not give the hits of its file: whatever the factory, it gives one at
    most, then nothing. *)
Theorem C89_generator_refuted : forall S H E (make : S -> S * (E + H)) new_spill caught n s,
  (List.length (filter yields (gen_take make new_spill caught n GStart s)) <= 1)%nat /\
  Forall (fun o => o = GStop) (tl (gen_take make new_spill caught n GStart s)).
Proof.
  intros S H E make new_spill caught n s.
  assert (G : forall n s, Forall (fun o => o = GStop) (gen_take make new_spill caught n GEnd s)).
  { clear. induction n as [|n IH]; intros s; cbn [gen_take gen_next]; auto. }
  assert (F : forall l : list (GOut H E), Forall (fun o => o = GStop) l -> filter yields l = []).
  { induction 1 as [|o l -> _ IH]; [reflexivity|exact IH]. }
  destruct n as [|n]; cbn [gen_take]; [split; [cbn; lia|apply Forall_nil]|].
  destruct (gen_next make new_spill caught GStart s) as [[g' s'] o] eqn:Q.
  assert (X : g' = GEnd).
  { unfold gen_next in Q. destruct (make s) as [s1 [e|h]]; [|congruence]. destruct (caught e); [|congruence].
    destruct (new_spill s1) as [s2 [e'|]]; [congruence|]. destruct (make s2) as [s3 [e'|h]]; congruence. }
  subst g'. cbn [tl filter]. split; [|apply G]. destruct (yields o); rewrite F by apply G; cbn [List.length]; lia.
Qed.
Print Assumptions C89_generator_refuted.

(** C89.  In any program too; the first result of a generator comes from the one or two next lines of
    the file, and RuntimeError takes the place of StopIteration when these are not hits. *)
Theorem C89_generator : forall c p g i s, nth_error (fw_gens (frun c p)) g = Some (i, s) ->
  let log := fw_log (frun c p) in
  (nexts g log = [] \/ exists o r, nexts g log = o :: r /\ Forall (fun x => x = GStop) r) /\
  forall k f ls, nth_error (fw_facs (frun c p)) i = Some (k, f) -> nth_error (opened p) f = Some ls ->
    let w' := frun c (p ++ [ONext g]) in
    let left := skipn (List.length (requests f log)) ls in
    match nexts g log with
    | [] => exists n o, first_result c k left n o /\ nexts g (fw_log w') = [o] /\ nth f (fw_files w') [] = skipn n left
    | os => nexts g (fw_log w') = os ++ [GStop] /\ fw_files w' = fw_files (frun c p)
    end.
Proof.
  intros c p g i s E log. destruct (frun_inv c p) as [I G]. pose proof (g_gen _ G g i s E) as [Li Sy]. fold log in Sy. split.
  { destruct s; cbn [gen_says] in Sy; auto. }
  intros k f ls Ek Ef. cbv zeta. rewrite run_app. cbn [fstep]. rewrite E, Ek.
  destruct (i_file _ _ _ I f ls Ef) as [If _]. fold log in If.
  assert (Lf : (f < List.length (fw_files (frun c p)))%nat).
  { apply nth_error_In in Ek. apply (g_fac _ G) in Ek. tauto. }
  destruct s; cbn [gen_says] in Sy.
  2:{ destruct Sy as (o & r & Sy & _). rewrite Sy. cbn [gen_next fw_log fw_files]. rewrite nexts_app. cbn [nexts].
      rewrite Nat.eqb_refl. fold log. rewrite Sy. auto. }
  rewrite Sy. unfold gen_next, no_spill.
  destruct (make c k f (frun c p)) as [w1 r1] eqn:M1. pose proof (make_nexts c k f _ w1 r1 g M1) as N1.
  pose proof (make_keeps c k f _ w1 r1 M1 Lf) as (_ & _ & L1).
  destruct (make_spec c k f _ w1 r1 M1) as (_ & _ & _ & _ & _ & _ & _ & F1).
  rewrite If in F1.
  assert (Q : forall w' o, nexts g (fw_log w') = [] ->
     nexts g (fw_log (mkFW (fw_files w') (fw_facs w') (set_nth g (i, GEnd) (fw_gens w')) (fw_bad w') (fw_log w' ++ [SNext g o]))) = [o]).
  { intros w' o N. cbn [fw_log]. rewrite nexts_app, N. cbn [nexts app]. rewrite Nat.eqb_refl. reflexivity. }
  assert (T : forall w l t, (f < List.length (fw_files w))%nat -> l = set_nth f t (fw_files w) -> nth f l [] = t).
  { intros w l t L ->. rewrite nth_of_error, set_nth_same by exact L. reflexivity. }
  fold log in N1. rewrite Sy in N1.
  set (left := skipn (List.length (requests f log)) ls) in *.
  destruct left as [|l1 t1] eqn:El.
  - destruct F1 as [-> F1]. cbn [text_caught].
    destruct (make c k f w1) as [w2 r2] eqn:M2. pose proof (make_nexts c k f _ w2 r2 g M2) as N2. rewrite N1 in N2.
    destruct (make_spec c k f _ w2 r2 M2) as (_ & _ & _ & _ & _ & _ & _ & F2). rewrite F1, If in F2. destruct F2 as [-> F2].
    exists 0%nat, GRuntime. split; [apply first_end|]. split; [apply Q; exact N2|]. cbn [fw_files]. rewrite F2, If. reflexivity.
  - destruct F1 as [O1 F1]. pose proof (T _ _ _ Lf F1) as T1.
    destruct r1 as [e1|h1].
    + destruct e1 as [| |e1]; [contradiction| |]; cbn [text_caught].
      2:{ exists 1%nat, (GRaise (FErr_ e1)). split; [apply first_error; exact O1|]. split; [apply Q; exact N1|]. exact T1. }
      destruct (make c k f w1) as [w2 r2] eqn:M2. pose proof (make_nexts c k f _ w2 r2 g M2) as N2. rewrite N1 in N2.
      destruct (make_spec c k f _ w2 r2 M2) as (_ & _ & _ & _ & _ & _ & _ & F2). rewrite T1 in F2. destruct t1 as [|l2 t2].
      * destruct F2 as [-> F2]. cbn [text_caught]. exists 1%nat, GRuntime. split; [apply second_end; exact O1|]. split; [apply Q; exact N2|].
        cbn [fw_files]. rewrite F2. exact T1.
      * destruct F2 as [O2 F2]. assert (L2 : (f < List.length (fw_files w1))%nat) by lia. pose proof (T _ _ _ L2 F2) as T2.
        destruct r2 as [[| |e2]|h2]; [contradiction| | |].
        -- cbn [text_caught]. exists 2%nat, GRuntime. split; [eapply second_bad; eauto|]. split; [apply Q; exact N2|exact T2].
        -- cbn [text_caught]. exists 2%nat, (GRaise (FErr_ e2)). split; [eapply second_error; eauto|]. split; [apply Q; exact N2|exact T2].
        -- exists 2%nat, (GHit h2). split; [eapply second_hit; eauto|]. split; [apply Q; exact N2|exact T2].
    + exists 1%nat, (GHit h1). split; [apply first_hit; exact O1|]. split; [apply Q; exact N1|exact T1].
Qed.
Print Assumptions C89_generator.

(** Two factories and a generator share a file with a muon, a line that is too short, a particle that is
    not known and another muon. *)
Definition ex_row (pid : Z) : Line := LData [TNum 1; TNum 0; TNum 0; TNum 0; TNum 0; TNum 200; TNum 0; TInt pid; TInt 1; TInt 1; TInt 0; TNum 1].
Lemma ex_row_read c pid : (-2147483648 <= pid < 2147483648)%Z ->
  exists h, of_line c (KBuiltin "g4beamline_bl_track_file") (ex_row pid) (inr h) /\ pid_of h = pid.
Proof.
  intros I. assert (I1 : int32 1) by (split; lia). assert (I2 : int32 pid) by exact I.
  unfold of_line, ex_row, tokens, read_hit. cbn -[Rdiv Rmult c_light py_set complete translate_pid]. psets.
  cbn [translate_if]. eexists. split; [reflexivity|].
  unfold pid_of.
  match goal with |- h_int (complete ?cols ?ms ?cc ?h) _ = _ => destruct (complete_spec cols cc h) as [_ Hc]; [reflexivity|reflexivity|rewrite Hc; reflexivity] end.
Qed.
Definition ex_fmt : Kind := KBuiltin "g4beamline_bl_track_file".
Definition ex_file : list Line := [ex_row 13; LData [TInt 1]; ex_row 99999; ex_row (-13)].
Definition ex_program : list FOp :=
  [OOpen ex_file; OFactory ex_fmt 0; OFactory ex_fmt 0; OFactory (KBuiltin "mars_2") 0;
   OMake 0; OMake 1; OMake 0; OGen 1; ONext 0; ONext 0; OMake 1].
Example C89_ex c : exists h1 h2 h3, pid_of h1 = 13%Z /\ pid_of h2 = 99999%Z /\ pid_of h3 = (-13)%Z /\
  fw_log (frun c ex_program) =
    [SKeyError (KBuiltin "mars_2"); SRead 0 ex_fmt (inr h1); SRead 0 ex_fmt (inl FBad); SWarn 99999; SRead 0 ex_fmt (inr h2);
     SRead 0 ex_fmt (inr h3); SNext 0 (GHit h3); SNext 0 GStop; SRead 0 ex_fmt (inl FEof)].
Proof.
  destruct (ex_row_read c 13) as (h1 & R1 & P1); [lia|]. destruct (ex_row_read c 99999) as (h2 & R2 & P2); [lia|].
  destruct (ex_row_read c (-13)) as (h3 & R3 & P3); [lia|]. exists h1, h2, h3.
  split; [exact P1|]. split; [exact P2|]. split; [exact P3|]. unfold of_line in R1, R2, R3.
  set (k := ex_fmt) in *.
  assert (M : forall w i l t h, nth_error (fw_facs w) i = Some (k, 0%nat) -> fw_files w = [l :: t] ->
    read_hit "g4beamline_bl_track_file" c (tokens l) = RHitOk h -> pid_of h = 13%Z \/ pid_of h = (-13)%Z ->
    make c k 0 w = (mkFW [t] (fw_facs w) (fw_gens w) (fw_bad w) (fw_log w ++ [SRead 0 k (inr h)]), inr h)).
  { intros w i l t h A B D P. unfold make. rewrite B. cbn [nth]. unfold read_kind, k, ex_fmt. rewrite D.
    unfold warnings. destruct P as [-> | ->]; reflexivity. }
  set (w3 := mkFW [ex_file] [(k, 0%nat); (k, 0%nat)] [] [] [SKeyError (KBuiltin "mars_2")]).
  set (w4 := mkFW [tl ex_file] [(k, 0%nat); (k, 0%nat)] [] [] [SKeyError (KBuiltin "mars_2"); SRead 0 k (inr h1)]).
  set (w5 := mkFW [tl (tl ex_file)] [(k, 0%nat); (k, 0%nat)] [] []
    [SKeyError (KBuiltin "mars_2"); SRead 0 k (inr h1); SRead 0 k (inl FBad)]).
  set (w6 := mkFW [[ex_row (-13)]] [(k, 0%nat); (k, 0%nat)] [] [99999%Z]
    [SKeyError (KBuiltin "mars_2"); SRead 0 k (inr h1); SRead 0 k (inl FBad); SWarn 99999; SRead 0 k (inr h2)]).
  set (w7 := mkFW [[ex_row (-13)]] [(k, 0%nat); (k, 0%nat)] [(1%nat, GStart)] [99999%Z] (fw_log w6)).
  set (w8 := mkFW [[]] [(k, 0%nat); (k, 0%nat)] [(1%nat, GEnd)] [99999%Z] (fw_log w6 ++ [SRead 0 k (inr h3); SNext 0 (GHit h3)])).
  unfold frun, ex_program. cbn [fold_left]. fold k.
  change (fstep c (fstep c (fstep c (fstep c fw_new (OOpen ex_file)) (OFactory k 0)) (OFactory k 0)) (OFactory (KBuiltin "mars_2") 0)) with w3.
  assert (E4 : fstep c w3 (OMake 0) = w4).
  { cbn [fstep w3 fw_facs nth_error]. fold w3. rewrite (M w3 0%nat (ex_row 13) (tl ex_file) h1); auto. }
  assert (E5 : fstep c w4 (OMake 1) = w5) by reflexivity.
  assert (E6 : fstep c w5 (OMake 0) = w6).
  { change (fstep c w5 (OMake 0)) with (fst (make c k 0 w5)). unfold make.
    change (nth 0 (fw_files w5) []) with [ex_row 99999; ex_row (-13)]. unfold read_kind, k, ex_fmt. rewrite R2.
    unfold warnings. rewrite P2. reflexivity. }
  rewrite E4, E5, E6. change (fstep c w6 (OGen 1)) with w7.
  assert (E8 : fstep c w7 (ONext 0) = w8).
  { cbn [fstep w7 fw_facs fw_gens nth_error]. fold w7. cbn [gen_next].
    rewrite (M w7 0%nat (ex_row (-13)) [] h3); auto. }
  rewrite E8. reflexivity.
Qed.
Example C89_bunch_ex c : exists hs, new_from_read_builtin "g4beamline_bl_track_file" c (fun _ => true) (-1) [ex_file] = inr hs /\
  hits_of (requests 0 (fw_log (frun c ex_program))) = hs /\ List.length hs = 3%nat.
Proof.
  destruct (C89_ex c) as (h1 & h2 & h3 & _ & _ & _ & L).
  assert (T : In "g4beamline_bl_track_file" text_formats) by (cbn; tauto).
  assert (N : [ex_file] <> []) by discriminate.
  assert (A : new_from_read_builtin "g4beamline_bl_track_file" c (fun _ => true) (-1) [ex_file] = inr
     (at_most (-1) (hits_in (read_hit "g4beamline_bl_track_file" c) (fun _ => true)
        (flat_map (data_lines "g4beamline_bl_track_file") [ex_file])))).
  { apply C29_read; auto. intros f l [<-|[]] I. change (data_lines "g4beamline_bl_track_file" ex_file) with ex_file in I.
    intros [e E]. destruct I as [<-|[<-|[<-|[<-|[]]]]].
    - destruct (ex_row_read c 13) as (h & R & _); [lia|]. unfold of_line in R. congruence.
    - discriminate E.
    - destruct (ex_row_read c 99999) as (h & R & _); [lia|]. unfold of_line in R. congruence.
    - destruct (ex_row_read c (-13)) as (h & R & _); [lia|]. unfold of_line in R. congruence. }
  set (hs := at_most _ _) in A. exists hs. split; [exact A|].
  destruct (C89_bunch c ex_program 0 "g4beamline_bl_track_file" ex_file hs T A eq_refl) as (n & _ & B).
  { rewrite L. intros k r I. cbn in I. repeat (destruct I as [I|I]; [injection I as <- _; reflexivity|]). destruct I. }
  assert (E : hits_of (requests 0 (fw_log (frun c ex_program))) = hs) by (apply B; rewrite L; cbn; lia).
  split; [exact E|]. rewrite <- E, L. reflexivity.
Qed.
