(** Loading the bunches of files: C80. *)
From Coq Require Import Reals ZArith String List Bool Lia Lra Permutation Sorted.
From Verif Require Import Num WeightModel HitcoreModel HitcoreSpec HitcoreProofs PyLibModel HitPyModel HitPySpec HitPyProofs TableModel
  BunchModel BunchSpec BunchProofs BunchNumModel BunchProps IOModel IOSpec IOProofs IOFileProofs IOProps UserIOModel LoadModel LoadSpec LoadProofs.
Import ListNotations.
Open Scope string_scope.
Open Scope list_scope.

(** The bunch loaded has the hits that were read, in the order of the files; they are new, and the
    hits that the program already had are as they were. *)
Theorem C80_load : forall (q : list (WOp RNum)) fmt test n files hs,
  new_from_read_builtin fmt (cur_ctx (wrun q)) test n files = inr hs ->
  exists w' b, load_bunch fmt (wrun q) test n files = (w', inr b) /\ in_step b /\
    hits_kept (wrun q) w' /\ new_hits (wrun q) w' (b_hits b) /\
    Forall2 (fun l h => has_state w' l (h, cur_ctx (wrun q))) (b_hits b) hs.
Proof.
  intros q fmt test n files hs E. unfold load_bunch. rewrite E.
  destruct (load_hits_spec hs (wrun q) bunch_new (fresh_run q) eq_refl) as (w' & b & L & S & B & C & F & O & G).
  cbn [b_hits bunch_new app] in B. rewrite L. exists w', b. split; [reflexivity|]. split; [exact S|].
  split; [apply kept; auto; apply fresh_run|]. rewrite B. split.
  - split; [apply seq_NoDup|]. intros l I. apply in_seq in I. split.
    + intros H. apply H, fresh_run. lia.
    + unfold is_hit. clear - G I. revert I G. generalize (w_next (wrun q)) as n0. intros n0 I G.
      assert (In l (seq n0 (List.length hs))) as J by (apply in_seq; exact I). clear I. revert J.
      induction G as [|a h ls hs' E G IH]; intros []; subst; auto. rewrite E. discriminate.
  - clear - G C. induction G; constructor; auto. split; cbn; auto.
Qed.
Print Assumptions C80_load.

(** new_dict_from_read_builtin: a bunch for each value of the variable; together they have the hits
    that were read, each in the order of the files. *)
Theorem C80_dict : forall (q : list (WOp RNum)) extra fmt files k test hs,
  stored k -> new_from_read_builtin fmt (cur_ctx (wrun q)) test (-1) files = inr hs ->
  exists w' d, new_dict_from_read_builtin extra fmt (wrun q) files k test = (w', inr d) /\
    hits_kept (wrun q) w' /\ NoDup (map fst d) /\ new_hits (wrun q) w' (flat_map (fun e => b_hits (snd e)) d) /\
    (forall z, In z (map fst d) <-> exists h, In h hs /\ int_reading (cur_ctx (wrun q)) k h = z) /\
    (forall z b, In (z, b) d -> in_step b /\
       Forall2 (fun l h => has_state w' l (h, cur_ctx (wrun q))) (b_hits b)
         (filter (fun h => Z.eqb (int_reading (cur_ctx (wrun q)) k h) z) hs)).
Proof.
  intros q extra fmt files k test hs K E.
  destruct (C80_load q fmt test (-1) files hs E) as (w' & b & L & S & Hk & Hn & G).
  unfold new_dict_from_read_builtin. rewrite L.
  destruct (C17_split_partition RNum extra int_value w' b k (fun l => match hit_get w' l k with Some v => v | None => POther end))
    as (d & D & N & P1 & P2 & P3).
  { intros l I. unfold get_hit_variable.
    assert (X : exists h, has_state w' l (h, cur_ctx (wrun q))).
    { clear - G I. induction G as [|a h ls hs' E G IH]; [destruct I|]. destruct I as [<- | I]; eauto. }
    destruct X as (h & X). destruct (state_stored w' l _ k K X) as (v & -> & _). reflexivity. }
  rewrite D. exists w', d. split; [reflexivity|]. split; [exact Hk|]. split; [exact N|]. split.
  { destruct Hn as [Hn1 Hn2]. split; [eapply Permutation_NoDup; [apply Permutation_sym, P3|exact Hn1]|].
    intros l I. apply Hn2. eapply Permutation_in; [exact P3|exact I]. }
  assert (V : forall l, int_value (match hit_get w' l k with Some v => v | None => POther end)
              = match hit_get w' l k with Some v => int_value v | None => 0%Z end) by (intros l; destruct (hit_get w' l k); reflexivity).
  assert (Pr : forall z b', In (z, b') d -> in_step b' /\
       Forall2 (fun l h => has_state w' l (h, cur_ctx (wrun q))) (b_hits b')
         (filter (fun h => Z.eqb (int_reading (cur_ctx (wrun q)) k h) z) hs)).
  { intros z b' I. destruct (P1 z b' I) as (B & S' & _). split; auto. rewrite B.
    rewrite (filter_ext _ (fun l => Z.eqb (match hit_get w' l k with Some v => int_value v | None => 0%Z end) z)) by (intros; rewrite V; reflexivity).
    apply filter_states; auto. }
  split; [|exact Pr]. intros z. split.
  - intros I. apply in_map_iff in I. destruct I as ([z' b'] & <- & I). cbn [fst]. destruct (Pr z' b' I) as (_ & F). destruct (P1 z' b' I) as (_ & _ & Ne).
    destruct (filter (fun h => Z.eqb (int_reading (cur_ctx (wrun q)) k h) z') hs) as [|h r] eqn:Ef.
    + inversion F as [X|]. rewrite <- X in Ne. contradiction.
    + exists h. assert (In h (h :: r)) as X by (left; auto). rewrite <- Ef in X. apply filter_In in X. destruct X as [X1 X2]. split; auto. apply Z.eqb_eq. auto.
  - intros (h & I & <-).
    assert (X : exists l, In l (b_hits b) /\ has_state w' l (h, cur_ctx (wrun q))).
    { clear - G I. induction G as [|a h' ls hs' E G IH]; [destruct I|]; destruct I as [<- | I].
      - exists a. split; [left; auto|auto].
      - destruct (IH I) as (l & L1 & L2). exists l. split; [right; auto|auto]. }
    destruct X as (l & L1 & L2). specialize (P2 l L1). rewrite V, (reading_value w' l _ k K L2) in P2. exact P2.
Qed.
Print Assumptions C80_dict.

(** new_list_from_read_builtin: the same bunches by increasing value. *)
Theorem C80_list : forall (q : list (WOp RNum)) extra fmt files k test hs,
  stored k -> new_from_read_builtin fmt (cur_ctx (wrun q)) test (-1) files = inr hs ->
  exists w' bs zs, new_list_from_read_builtin extra fmt (wrun q) files k test = (w', inr bs) /\
    hits_kept (wrun q) w' /\ StronglySorted Z.lt zs /\
    (forall z, In z zs <-> exists h, In h hs /\ int_reading (cur_ctx (wrun q)) k h = z) /\
    Forall2 (fun z b => in_step b /\ Forall2 (fun l h => has_state w' l (h, cur_ctx (wrun q))) (b_hits b)
         (filter (fun h => Z.eqb (int_reading (cur_ctx (wrun q)) k h) z) hs)) zs bs.
Proof.
  intros q extra fmt files k test hs K E.
  destruct (C80_dict q extra fmt files k test hs K E) as (w' & d & D & Hk & N & _ & A & B).
  destruct (C17_list_sorted d N) as (zs & Z1 & Z2 & Z3).
  unfold new_list_from_read_builtin. rewrite D. exists w', (bunch_list d), zs.
  split; [reflexivity|]. split; [exact Hk|]. split; [exact Z1|]. split.
  - intros z. rewrite <- A. split; intros I; [eapply Permutation_in; [exact Z2|exact I]|eapply Permutation_in; [apply Permutation_sym, Z2|exact I]].
  - clear - Z3 B. induction Z3; constructor; auto.
Qed.
Print Assumptions C80_list.

(** Files that cannot be read: the exception reaches the caller and no hit is changed or made. *)
Theorem C80_errors : forall (q : list (WOp RNum)) extra fmt files k test n e,
  new_from_read_builtin fmt (cur_ctx (wrun q)) test n files = inl e ->
  load_bunch fmt (wrun q) test n files = (wrun q, inl e) /\
  (n = (-1)%Z -> new_dict_from_read_builtin extra fmt (wrun q) files k test = (wrun q, inl (LRead e)) /\
                 new_list_from_read_builtin extra fmt (wrun q) files k test = (wrun q, inl (LRead e))).
Proof.
  intros q extra fmt files k test n e E.
  assert (L : load_bunch fmt (wrun q) test n files = (wrun q, inl e)) by (unfold load_bunch; rewrite E; reflexivity).
  split; [exact L|]. intros ->. unfold new_list_from_read_builtin, new_dict_from_read_builtin. rewrite L. auto.
Qed.
Print Assumptions C80_errors.

(** A variable that no hit has: an exception if there is a hit, else no bunches. *)
Theorem C80_no_variable : forall (q : list (WOp RNum)) extra fmt files k test hs,
  (forall (w : RWorld) l, hit_get w l k = None) -> (forall w ls l, extra w ls k l = None) ->
  new_from_read_builtin fmt (cur_ctx (wrun q)) test (-1) files = inr hs ->
  (hs <> [] -> exists w', new_dict_from_read_builtin extra fmt (wrun q) files k test = (w', inl LSplit) /\
                          new_list_from_read_builtin extra fmt (wrun q) files k test = (w', inl LSplit)) /\
  (hs = [] -> new_dict_from_read_builtin extra fmt (wrun q) files k test = (wrun q, inr []) /\
              new_list_from_read_builtin extra fmt (wrun q) files k test = (wrun q, inr [])).
Proof.
  intros q extra fmt files k test hs K X E. split; intros H.
  - destruct (C80_load q fmt test (-1) files hs E) as (w' & b & L & _ & _ & _ & G).
    assert (D : new_dict_from_read_builtin extra fmt (wrun q) files k test = (w', inl LSplit)).
    { unfold new_dict_from_read_builtin. rewrite L. unfold split.
      inversion G as [Hb Hh|l h ls hs' _ _ Hb Hh]; [congruence|]. cbn [split_loop]. unfold get_hit_variable. rewrite K, X. reflexivity. }
    exists w'. unfold new_list_from_read_builtin. rewrite D. auto.
  - subst hs. assert (D : new_dict_from_read_builtin extra fmt (wrun q) files k test = (wrun q, inr [])).
    { unfold new_dict_from_read_builtin, load_bunch. rewrite E. reflexivity. }
    unfold new_list_from_read_builtin. rewrite D. auto.
Qed.
Print Assumptions C80_no_variable.

(** Whatever a program writes, for a variable that the format has: another program loads a bunch for
    each value of the variable, by increasing value; each has the hits with this value, restored, in
    the order of the file. *)
Theorem C80_round_trip : forall (p q : list (WOp RNum)) extra fmt bunches comment k,
  In fmt text_formats -> In k stored_ints -> carried fmt k = true ->
  (forall b l, In b bunches -> In l (b_hits b) -> is_hit (wrun p) l) ->
  exists w1 file sorted w' bs zs,
    hit_write_builtin_from_dict "mm" (wrun p) bunches fmt comment = (w1, inr file) /\
    by_station (wrun p) (flat_map b_hits bunches) sorted /\
    new_list_from_read_builtin extra fmt (wrun q) [file] k (fun _ => true) = (w', inr bs) /\
    hits_kept (wrun q) w' /\ StronglySorted Z.lt zs /\
    (forall z, In z zs <-> exists l pid, In l (flat_map b_hits bunches) /\ value_is (wrun p) k z l = true /\
                                         has_pid (wrun p) l pid /\ writable fmt pid) /\
    Forall2 (fun z b => in_step b /\
               reloaded_at fmt (wrun p) w' (filter (value_is (wrun p) k z) sorted) (b_hits b)) zs bs.
Proof.
  intros p q extra fmt bunches comment k F K Ca H.
  assert (H' : forall l, In l (flat_map b_hits bunches) -> is_hit (wrun p) l).
  { intros l I. apply in_flat_map in I. destruct I as (b & I1 & I2). eauto. }
  destruct (C28_file_written p fmt (flat_map b_hits bunches) None F H') as (file & w1 & _ & _ & _ & E & _).
  destruct (C29_written_file_read p fmt (flat_map b_hits bunches) None (cur_ctx (wrun q)) w1 file F H' eq_refl E) as (sorted & hs & A1 & A2 & A3).
  destruct (C80_list q extra fmt [file] k (fun _ => true) hs (or_intror K) A2) as (w' & bs & zs & L & Hk & Zs & Zi & Fb).
  assert (Ff : forall z, reloaded fmt (wrun p) (cur_ctx (wrun q)) (filter (value_is (wrun p) k z) sorted)
     (filter (fun h => Z.eqb (int_reading (cur_ctx (wrun q)) k h) z) hs)).
  { intros z. clear - A3 K Ca. induction A3 as [|l s pid h ls hs S P W B R IH|l pid ls hs P N R IH]; cbn [filter].
    - constructor.
    - assert (X : value_is (wrun p) k z l = Z.eqb (int_reading (cur_ctx (wrun q)) k h) z).
      { rewrite (value_same fmt (wrun p) l s (h, cur_ctx (wrun q)) k z K Ca S B). reflexivity. }
      rewrite X. destruct (Z.eqb _ z); auto. econstructor 2; eauto.
    - destruct (value_is (wrun p) k z l); auto. econstructor 3; eauto. }
  exists w1, file, sorted, w', bs, zs. split.
  { unfold hit_write_builtin_from_dict.
    assert (X : is_in fmt file_types = true) by (clear - F; simpl in F; repeat (destruct F as [<- | F]; [reflexivity|]); contradiction).
    rewrite X. exact E. }
  split; [exact A1|]. split; [exact L|]. split; [exact Hk|]. split; [exact Zs|]. split.
  - destruct A1 as (_ & _ & A1). intros z. rewrite Zi. split.
    + intros (h & I & R). specialize (Ff z).
      assert (J : In h (filter (fun h => Z.eqb (int_reading (cur_ctx (wrun q)) k h) z) hs)) by (apply filter_In; split; [auto|apply Z.eqb_eq; auto]).
      destruct (reloaded_from _ _ _ _ _ Ff h J) as (l & pid & L1 & L2 & L3). apply filter_In in L1. destruct L1 as [L1 L4].
      exists l, pid. rewrite <- A1. auto.
    + intros (l & pid & I & V & P & W). rewrite <- A1 in I. specialize (Ff z).
      assert (J : In l (filter (value_is (wrun p) k z) sorted)) by (apply filter_In; auto).
      destruct (reloaded_to _ _ _ _ _ Ff l pid J P W) as (h & J2). apply filter_In in J2. destruct J2 as [J2 J3].
      exists h. split; auto. apply Z.eqb_eq. auto.
  - assert (Cw : forall z b, Forall2 (fun l h => has_state w' l (h, cur_ctx (wrun q))) (b_hits b)
         (filter (fun h => Z.eqb (int_reading (cur_ctx (wrun q)) k h) z) hs) ->
         reloaded_at fmt (wrun p) w' (filter (value_is (wrun p) k z) sorted) (b_hits b)).
    { intros z b Fs. specialize (Ff z). apply (reloaded_states _ _ _ _ _ _ Ff (b_hits b) Fs). }
    clear - Fb Cw. induction Fb as [|z b zs bs [S1 S2] Fb IH]; constructor; auto.
Qed.
Print Assumptions C80_round_trip.

(** Stations of an icool for009 file: the bunch of each station has its hits in the order in which
    they were written, also if they were in different bunches. *)
Theorem C80_stations : forall (p q : list (WOp RNum)) extra bunches comment,
  (forall b l, In b bunches -> In l (b_hits b) -> is_hit (wrun p) l) ->
  exists w1 file w' bs zs,
    hit_write_builtin_from_dict "mm" (wrun p) bunches "icool_for009" comment = (w1, inr file) /\
    new_list_from_read_builtin extra "icool_for009" (wrun q) [file] "station" (fun _ => true) = (w', inr bs) /\
    hits_kept (wrun q) w' /\ StronglySorted Z.lt zs /\
    Forall2 (fun z b => in_step b /\
      reloaded_at "icool_for009" (wrun p) w' (filter (station_is (wrun p) z) (flat_map b_hits bunches)) (b_hits b)) zs bs.
Proof.
  intros p q extra bunches comment H.
  destruct (C80_round_trip p q extra "icool_for009" bunches comment "station") as (w1 & file & sorted & w' & bs & zs & E & A & L & Hk & Zs & _ & Fb); auto.
  - left; reflexivity.
  - simpl; tauto.
  - exists w1, file, w', bs, zs. repeat (split; auto). destruct A as (_ & A & _). clear - Fb A.
    induction Fb as [|z b zs bs [S1 S2] Fb IH]; constructor; auto. split; auto. rewrite <- A. exact S2.
Qed.
Print Assumptions C80_stations.

(** The other text formats have no station: the default variable gives at most one bunch, of station
    0, whatever the stations of the hits written. *)
Theorem C80_stations_refuted : forall (p q : list (WOp RNum)) extra fmt bunches comment,
  In fmt text_formats -> fmt <> "icool_for009" ->
  (forall b l, In b bunches -> In l (b_hits b) -> is_hit (wrun p) l) ->
  exists w1 file w' bs,
    hit_write_builtin_from_dict "mm" (wrun p) bunches fmt comment = (w1, inr file) /\
    new_list_from_read_builtin extra fmt (wrun q) [file] "station" (fun _ => true) = (w', inr bs) /\ (List.length bs <= 1)%nat.
Proof.
  intros p q extra fmt bunches comment F Nf H.
  assert (H' : forall l, In l (flat_map b_hits bunches) -> is_hit (wrun p) l).
  { intros l I. apply in_flat_map in I. destruct I as (b & I1 & I2). eauto. }
  destruct (C28_file_written p fmt (flat_map b_hits bunches) None F H') as (file & w1 & _ & _ & _ & E & _).
  destruct (C29_written_file_read p fmt (flat_map b_hits bunches) None (cur_ctx (wrun q)) w1 file F H' eq_refl E) as (sorted & hs & A1 & A2 & A3).
  assert (K : In "station" stored_ints) by (simpl; tauto).
  destruct (C80_list q extra fmt [file] "station" (fun _ => true) hs (or_intror K) A2) as (w' & bs & zs & L & Hk & Zs & Zi & Fb).
  exists w1, file, w', bs. split.
  { unfold hit_write_builtin_from_dict.
    assert (X : is_in fmt file_types = true) by (clear - F; simpl in F; repeat (destruct F as [<- | F]; [reflexivity|]); contradiction).
    rewrite X. exact E. }
  split; [exact L|].
  assert (Z0 : forall z, In z zs -> z = 0%Z).
  { intros z I. apply Zi in I. destruct I as (h & I & <-).
    assert (Ca : carried fmt "station" = false).
    { clear - F Nf. simpl in F. repeat (destruct F as [<- | F]; [first [contradiction|reflexivity]|]). contradiction. }
    clear - A3 I Ca K. induction A3 as [|l s pid h' ls hs S P W B R IH|l pid ls hs P N R IH]; [destruct I| |auto].
    destruct I as [<- | I]; auto. unfold int_reading. rewrite (value_default fmt s (h', cur_ctx (wrun q)) "station" K Ca B). reflexivity. }
  assert (Le : (List.length zs <= 1)%nat).
  { destruct zs as [|a [|b zs]]; cbn; try lia. inversion Zs as [|? ? _ G]. inversion G as [|? ? G1]. 
    rewrite (Z0 a), (Z0 b) in G1 by (simpl; auto). lia. }
  replace (List.length bs) with (List.length zs); auto. clear - Fb. induction Fb; cbn; auto.
Qed.
Print Assumptions C80_stations_refuted.

Lemma dict_write g4 w bs fmt c : In fmt text_formats ->
  hit_write_builtin_from_dict g4 w bs fmt c = write_list g4 fmt w (flat_map b_hits bs) None.
Proof.
  intros F. unfold hit_write_builtin_from_dict.
  assert (X : is_in fmt file_types = true) by (clear - F; simpl in F; repeat (destruct F as [<- | F]; [reflexivity|]); contradiction).
  rewrite X. reflexivity.
Qed.
Lemma value_station w : value_is w "station" = station_is w.
Proof. reflexivity. Qed.

Lemma three_hits : forall p : list (WOp RNum),
  (forall l, In l [0; 1; 2]%nat -> is_hit (wrun p) l) ->
  has_pid (wrun p) 0 (-13) -> has_pid (wrun p) 1 22 -> has_pid (wrun p) 2 13 ->
  in_station (wrun p) 0 2 -> in_station (wrun p) 1 1 -> in_station (wrun p) 2 1 ->
  hit_get (wrun p) 2 "event_number" = Some (PInt 7) ->
  exists w1 file hs w' b1 b2 l1 l2,
  hit_write_builtin_from_dict "mm" (wrun p) [mkBunch [0]%nat []; mkBunch [1; 2]%nat []] "icool_for009" None = (w1, inr file) /\
  new_from_read_builtin "icool_for009" (cur_ctx (wrun p)) (fun _ => true) (-1) [file] = inr hs /\
  new_list_from_read_builtin no_extra "icool_for009" (wrun p) [file] "station" (fun _ => true) = (w', inr [b1; b2]) /\
  b_hits b1 = [l1] /\ b_hits b2 = [l2] /\
  hit_get w' l1 "pid" = Some (PInt 13) /\ hit_get w' l2 "pid" = Some (PInt (-13)) /\ hit_get w' l1 "event_number" = Some (PInt 7).
Proof.
  intros p Hh P0 P1 P2 S0 S1 S2 E7. unfold in_station in *.
  assert (H : forall b l, In b [mkBunch [0]%nat []; mkBunch [1; 2]%nat []] -> In l (b_hits b) -> is_hit (wrun p) l).
  { intros b l [<- | [<- | []]] I; apply Hh; simpl in *; tauto. }
  destruct (C80_round_trip p p no_extra "icool_for009" [mkBunch [0]%nat []; mkBunch [1; 2]%nat []] None "station")
    as (w1 & file & sorted & w' & bs & zs & E & A & L & Hk & Zs & Zi & Fb); auto; [left; reflexivity|simpl; tauto|].
  assert (W1 : writable "icool_for009" (-13)) by (exists 2%Z; vm_compute; tauto).
  assert (W2 : writable "icool_for009" 13) by (exists (-2)%Z; vm_compute; tauto).
  assert (W3 : ~ writable "icool_for009" 22) by apply ex_beam_ok.
  assert (In 1%Z zs) as I1.
  { apply Zi. exists 2%nat, 13%Z. split; [simpl; tauto|]. split; [unfold value_is; rewrite ?S0, ?S2; reflexivity|]. auto. }
  assert (In 2%Z zs) as I2.
  { apply Zi. exists 0%nat, (-13)%Z. split; [simpl; tauto|]. split; [unfold value_is; rewrite ?S0, ?S2; reflexivity|]. auto. }
  assert (Z12 : forall z, In z zs -> z = 1%Z \/ z = 2%Z).
  { intros z I. apply Zi in I. destruct I as (l & pid & I & V & _). simpl in I. destruct I as [<- | [<- | [<- | []]]]; unfold value_is in V; rewrite ?S0, ?S1, ?S2 in V; apply Z.eqb_eq in V; auto. }
  assert (Ez : zs = [1; 2]%Z).
  { destruct zs as [|a [|b [|c r]]].
    - destruct I1.
    - exfalso. destruct I1 as [-> | []]. destruct I2 as [I2 | []]. discriminate.
    - inversion Zs as [|? ? _ G]. inversion G as [|? ? G1]. destruct (Z12 a) as [-> | ->], (Z12 b) as [-> | ->]; simpl; auto; lia.
    - exfalso. inversion Zs as [|? ? Zs' G]. inversion G as [|? ? G1 G2]. inversion Zs' as [|? ? _ G3]. inversion G3 as [|? ? G4].
      destruct (Z12 a) as [-> | ->], (Z12 b) as [-> | ->], (Z12 c) as [-> | ->]; simpl; auto; lia. }
  subst zs. inversion Fb as [|? b1 ? bs' [_ R1] Fb']. inversion Fb' as [|? b2 ? bs'' [_ R2] Fb'']. inversion Fb''. subst.
  destruct A as (_ & A & _). rewrite value_station in R1, R2. rewrite A in R1, R2.
  assert (F1 : filter (station_is (wrun p) 1) (flat_map b_hits [mkBunch [0]%nat []; mkBunch [1; 2]%nat []]) = [1; 2]%nat) by (cbn [flat_map b_hits app filter]; unfold station_is; rewrite S0, S1, S2; reflexivity).
  assert (F2 : filter (station_is (wrun p) 2) (flat_map b_hits [mkBunch [0]%nat []; mkBunch [1; 2]%nat []]) = [0]%nat) by (cbn [flat_map b_hits app filter]; unfold station_is; rewrite S0, S1, S2; reflexivity).
  rewrite F1 in R1. rewrite F2 in R2. clear F1 F2.
  inversion R1 as [|? ? ? ? pid ? ? _ _ Q1 Q2|? pid ? ? Q1 Q2 R3].
  { exfalso. unfold has_pid in *. rewrite P1 in Q1. injection Q1 as <-. auto. }
  subst. inversion R3 as [|? l1 s s1 pid' ? ls1 T1 T1' Q3 Q4 B1 R4|? pid' ? ? Q3 Q4].
  2: { exfalso. unfold has_pid in *. rewrite P2 in Q3. injection Q3 as <-. auto. }
  inversion R4. subst. inversion R2 as [|? l2 s2 s2' pid2 ? ls2 T2 T2' Q5 Q6 B2 R5|? pid2 ? ? Q5 Q6].
  2: { exfalso. unfold has_pid in *. rewrite P0 in Q5. injection Q5 as <-. auto. }
  inversion R5. subst.
  destruct (C29_written_file_read p "icool_for009" [0; 1; 2]%nat None (cur_ctx (wrun p)) w1 file) as (_ & hs & _ & Hs & _).
  { left; reflexivity. } { exact Hh. }
  { reflexivity. } { rewrite dict_write in E by (left; reflexivity). exact E. }
  assert (V : forall k z l l' s s', In k ["pid"; "event_number"] -> has_state (wrun p) l s -> has_state w' l' s' -> reads_back "icool_for009" s s' ->
     hit_get (wrun p) l k = Some (PInt z) -> hit_get w' l' k = Some (PInt z)).
  { intros k z l l' t t' Ik T T' B G.
    assert (K : In k stored_ints) by (destruct Ik as [<- | [<- | []]]; simpl; tauto).
    assert (Ca : carried "icool_for009" k = true) by (destruct Ik as [<- | [<- | []]]; reflexivity).
    pose proof (value_same _ _ _ _ _ k z K Ca T B) as X. unfold value_is in X. rewrite G, Z.eqb_refl in X. symmetry in X. apply Z.eqb_eq in X.
    destruct (state_get w' l' t' k K T') as (y & Y1 & Y2). rewrite Y1. f_equal. f_equal. rewrite <- X. unfold int_reading. destruct t'. cbn [fst snd]. rewrite Y2. reflexivity. }
  exists w1, file, hs, w', b1, b2, l1, l2. split; [exact E|]. split; [exact Hs|]. split; [exact L|]. split; [auto|]. split; [auto|].
  split; [apply (V "pid" 13%Z 2%nat l1 s s1); auto; simpl; auto|].
  split; [apply (V "pid" (-13)%Z 0%nat l2 s2 s2'); auto; simpl; auto|].
  apply (V "event_number" 7%Z 2%nat l1 s s1); auto; simpl; auto.
Qed.

(** The example program has a mu+ at station 2 in one bunch, a gamma and a mu- at station 1 in
    another: two bunches are loaded, the mu- first, and the gamma is not in the file. *)
Example C80_case : exists w1 file hs w' b1 b2 l1 l2,
  hit_write_builtin_from_dict "mm" (wrun ex_beam) [mkBunch [0]%nat []; mkBunch [1; 2]%nat []] "icool_for009" None = (w1, inr file) /\
  new_from_read_builtin "icool_for009" (cur_ctx (wrun ex_beam)) (fun _ => true) (-1) [file] = inr hs /\
  new_list_from_read_builtin no_extra "icool_for009" (wrun ex_beam) [file] "station" (fun _ => true) = (w', inr [b1; b2]) /\
  b_hits b1 = [l1] /\ b_hits b2 = [l2] /\
  hit_get w' l1 "pid" = Some (PInt 13) /\ hit_get w' l2 "pid" = Some (PInt (-13)) /\ hit_get w' l1 "event_number" = Some (PInt 7).
Proof.
  apply three_hits; try (vm_compute; reflexivity).
  intros l I. simpl in I. repeat (destruct I as [<- | I]; [eapply (is_hit_of_get _ _ _ "spill"); vm_compute; reflexivity|]). contradiction.
Qed.

(** A format that does not exist, and a variable that does not. *)
Example C80_errors_ex : exists e, forall extra,
  load_bunch "nonsense" (wrun []) (fun _ => true) (-1) [[]] = (wrun [], inl e) /\
  new_list_from_read_builtin extra "nonsense" (wrun []) [[]] "station" (fun _ => true) = (wrun [], inl (LRead e)).
Proof.
  eexists. intros extra.
  destruct (C80_errors [] extra "nonsense" [[]] "station" (fun _ => true) (-1) IIOError eq_refl) as (A & B). split; [exact A|apply B; reflexivity].
Qed.
Example C80_no_variable_ex : (forall (w : RWorld) l, hit_get w l "nonsense" = None).
Proof. intros w l. unfold hit_get. destruct (w_hits w l); reflexivity. Qed.
