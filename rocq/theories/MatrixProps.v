(** C44: tracking with transfer matrices. *)
From Coq Require Import Reals List Bool String Lra Lia.
From Verif Require Import Num HitcoreModel HitcoreSpec HitPyModel HitPySpec HitPyProofs
  MatrixModel MatrixSpec MatrixProofs.
Import ListNotations.
Open Scope string_scope.
Open Scope R_scope.

(** The constructor: IndexError if the lists differ in length, else TypeError if some argument
    is not a matrix of the right shape, else the tracking made of the given matrices. *)
Theorem C44_constructor tms offs oin :
  (mt_init tms offs oin = inl IIndexError <-> List.length offs <> List.length tms) /\
  ((exists t, mt_init tms offs oin = inr t) <->
   List.length offs = List.length tms /\
   (forall a, In a tms -> exists m, a = AMat m /\ shape_of m = (6%nat, 6%nat)) /\
   (forall a, In a (oin :: offs) -> exists m, a = AMat m /\ shape_of m = (1%nat, 6%nat))) /\
  (forall t, mt_init tms offs oin = inr t ->
     tms = map AMat (tm_list t) /\ offs = map (fun o => AMat [o]) (offset_list t) /\
     oin = AMat [offset_in t]).
Proof.
  assert (K : forall n k a, check_arg n k a = true <-> exists m, a = AMat m /\ shape_of m = (n, k)).
  { intros n k [m|]; simpl.
    - rewrite andb_true_iff, !Nat.eqb_eq. split.
      + intros [A B]. exists m. split; auto. unfold shape_of. simpl in *. congruence.
      + intros (m' & E & S). inversion E; subst. unfold shape_of in S. inversion S; subst. auto.
    - split; [discriminate|]. intros (m & E & _). discriminate. }
  assert (R1 : forall a, check_arg 1 6 a = true -> a = AMat [only_row a]).
  { intros a H. apply K in H. destruct H as ([|r [|r' m]] & -> & S); try discriminate. reflexivity. }
  assert (R6 : forall a, check_arg 6 6 a = true -> a = AMat (rows_of a)).
  { intros a H. apply K in H. destruct H as (m & -> & S). reflexivity. }
  unfold mt_init. destruct (Nat.eqb_spec (List.length offs) (List.length tms)) as [L|L]; simpl negb; cbn iota.
  2:{ split; [split; auto|]. split; [|discriminate]. split; [intros [t E]; discriminate|].
      intros [X _]. contradiction. }
  destruct (forallb (check_arg 1 6) (offs ++ [oin])) eqn:F1; simpl negb; cbn iota.
  2:{ split; [split; [discriminate|contradiction]|]. split; [|discriminate].
      split; [intros [t E]; discriminate|]. intros (_ & _ & X).
      assert (forallb (check_arg 1 6) (offs ++ [oin]) = true); [|congruence].
      apply forallb_forall. intros a Ha. apply K, X. apply in_app_or in Ha. simpl in *. tauto. }
  destruct (forallb (check_arg 6 6) tms) eqn:F6; simpl negb; cbn iota.
  2:{ split; [split; [discriminate|contradiction]|]. split; [|discriminate].
      split; [intros [t E]; discriminate|]. intros (_ & X & _).
      assert (forallb (check_arg 6 6) tms = true); [|congruence].
      apply forallb_forall. intros a Ha. apply K, X, Ha. }
  rewrite forallb_forall in F1, F6.
  split; [split; [discriminate|contradiction]|]. split.
  - split; [|eauto]. intros _. split; auto. split.
    + intros a Ha. apply K, F6, Ha.
    + intros a Ha. apply K, F1, in_or_app. simpl in *. tauto.
  - intros t E. inversion E; subst t; clear E. cbn [tm_list offset_list offset_in].
    rewrite !map_map. split; [|split].
    + rewrite <- (map_id tms) at 1. apply map_ext_in. intros a Ha. apply R6, F6, Ha.
    + rewrite <- (map_id offs) at 1. apply map_ext_in. intros a Ha. apply R1, F1, in_or_app; auto.
    + apply R1, F1, in_or_app. simpl. auto.
Qed.

(** track_one: the input first, then one hit for each matrix. *)
Theorem C44_track_one (t : MatrixTracking) (c : RCtx) (h : RHit) : well_shaped t ->
  exists outs, snd (track_one t c h) = inr (h :: outs) /\
    mt_last (fst (track_one t c h)) = [h :: outs] /\
    List.length outs = List.length (tm_list t) /\
    forall k out m o, nth_error outs k = Some out -> nth_error (tm_list t) k = Some m ->
      nth_error (offset_list t) k = Some o ->
      transported m (offset_in t) o h out /\ pz_set out /\
      same_except [Vpz; Vx; Vpx; Vy; Vpy; Vt; Venergy] h out.
Proof.
  intros (L & M & O & I).
  destruct (track_loop_spec h c (offset_in t) (tm_list t) (offset_list t)) as (outs & E & Lo & H);
    auto.
  exists outs. unfold track_one. rewrite E. cbn [fst snd mt_last]. auto.
Qed.

(** Identity matrices that come back to the offset they left: the same coordinates; and the
    same hit when it is on the mass shell and goes forwards. *)
Theorem C44_identity (t : MatrixTracking) (c : RCtx) (h : RHit) outs k out m : well_shaped t ->
  snd (track_one t c h) = inr (h :: outs) -> nth_error outs k = Some out ->
  nth_error (tm_list t) k = Some m -> nth_error (offset_list t) k = Some (offset_in t) ->
  is_identity 6 m ->
  (forall i, (i < 6)%nat -> coordinate out i = coordinate h i) /\
  (on_shell h -> 0 < h_dbl h Vpz -> 1 / 1000000 < h_dbl h Vpz * h_dbl h Vpz -> same h out).
Proof.
  intros W E Ek Em Eo Hm. destruct (C44_track_one t c h W) as (outs' & E' & _ & _ & H).
  rewrite E in E'. assert (outs' = outs) by congruence. subst outs'.
  destruct (H k out m (offset_in t) Ek Em Eo) as (T & P & S).
  assert (C : forall i, (i < 6)%nat -> coordinate out i = coordinate h i).
  { intros i Hi. rewrite T by auto.
    rewrite (sum_n_ext 6 _ (fun j => (if Nat.eqb i j then 1 else 0)
                              * (coordinate h j - nth j (offset_in t) 0))).
    2:{ intros j Hj. rewrite (Hm i j) by auto. auto. }
    rewrite sum_n_delta by auto. lra. }
  split; auto. intros Sh Fw Rm.
  assert (C' : forall d, In d coord_vars -> h_dbl out d = h_dbl h d).
  { intros d Hd. destruct (In_nth _ _ Vx Hd) as (i & Hi & <-). exact (C i Hi). }
  destruct S as [S Si].
  assert (Ms : h_dbl out Vmass = h_dbl h Vmass) by (apply S; simpl; intuition discriminate).
  assert (Rr : pz_room out = h_dbl h Vpz * h_dbl h Vpz).
  { unfold pz_room. rewrite Ms, !C' by (simpl; auto 10).
    unfold on_shell in Sh. lra. }
  assert (Z : h_dbl out Vpz = h_dbl h Vpz).
  { destruct P as [P _]. rewrite Rr in P. destruct (P Rm) as [Ho Hp].
    assert (Q : h_dbl out Vpz * h_dbl out Vpz = h_dbl h Vpz * h_dbl h Vpz).
    { unfold on_shell in Ho. unfold pz_room in Rr. lra. }
    nra. }
  split; auto. intros d _. destruct (in_dec dblvar_eq_dec d (Vpz :: coord_vars)) as [Hd|Hd].
  - simpl in Hd. destruct Hd as [<- | Hd]; auto. 
  - apply S; auto.
Qed.

(** Tracking through one set of matrices and then another is tracking through the products. *)
Theorem C44_compose (t1 t2 t : MatrixTracking) (c : RCtx) (h h1 h2 h12 : RHit) m1 m2 m12 :
  well_shaped t1 -> well_shaped t2 -> well_shaped t ->
  tm_list t1 = [m1] -> tm_list t2 = [m2] -> tm_list t = [m12] ->
  offset_list t1 = [offset_in t2] -> offset_in t = offset_in t1 ->
  offset_list t = offset_list t2 -> is_product 6 m2 m1 m12 ->
  snd (track_one t1 c h) = inr [h; h1] -> snd (track_one t2 c h1) = inr [h1; h2] ->
  snd (track_one t c h) = inr [h; h12] ->
  same h12 h2.
Proof.
  intros W1 W2 W T1 T2 T O1 Oi Ol Pr E1 E2 E.
  destruct (C44_track_one t1 c h W1) as (o1 & E1' & _ & _ & H1).
  destruct (C44_track_one t2 c h1 W2) as (o2 & E2' & _ & _ & H2).
  destruct (C44_track_one t c h W) as (o & E' & _ & _ & H).
  assert (o1 = [h1]) by congruence. assert (o2 = [h2]) by congruence.
  assert (o = [h12]) by congruence. subst o1 o2 o. rewrite T1, O1 in H1. rewrite T2 in H2.
  rewrite T, Ol, Oi in H.
  assert (exists v, offset_list t2 = [v]) as [v V].
  { destruct W2 as [L _]. rewrite T2 in L. destruct (offset_list t2) as [|v [|]]; try discriminate. eauto. }
  rewrite V in *.
  destruct (H1 0%nat _ _ _ eq_refl eq_refl eq_refl) as (A1 & _ & S1).
  destruct (H2 0%nat _ _ _ eq_refl eq_refl eq_refl) as (A2 & P2 & S2).
  destruct (H 0%nat _ _ _ eq_refl eq_refl eq_refl) as (A & P & S).
  assert (C : forall i, (i < 6)%nat -> coordinate h2 i = coordinate h12 i).
  { intros i Hi. rewrite A, A2 by auto. f_equal.
    rewrite (sum_n_ext 6 _ (fun j => sum_n 6 (fun k => ent m2 i j * (ent m1 j k *
               (coordinate h k - nth k (offset_in t1) 0))))).
    2:{ intros j Hj. rewrite A1 by auto. rewrite sum_n_scal. f_equal. lra. }
    rewrite sum_n_swap. apply sum_n_ext. intros k Hk. rewrite (Pr i k) by auto.
    rewrite Rmult_comm, <- sum_n_scal. apply sum_n_ext. intros j Hj. lra. }
  assert (C' : forall d, In d coord_vars -> h_dbl h2 d = h_dbl h12 d).
  { intros d Hd. destruct (In_nth _ _ Vx Hd) as (i & Hi & <-). exact (C i Hi). }
  destruct S as [S Si], S1 as [S1 S1i], S2 as [S2 S2i].
  assert (F : forall d, ~ In d (Vpz :: coord_vars) -> h_dbl h2 d = h_dbl h12 d).
  { intros d Hd. rewrite (S d), (S2 d), (S1 d); auto. }
  assert (Rm : pz_room h2 = pz_room h12).
  { unfold pz_room. rewrite (F Vmass) by (simpl; intuition discriminate).
    rewrite !C' by (simpl; auto 10). auto. }
  assert (Z : h_dbl h2 Vpz = h_dbl h12 Vpz).
  { destruct P as [Pa Pb], P2 as [P2a P2b]. rewrite Rm in P2a, P2b.
    destruct (Rlt_dec (1 / 1000000) (pz_room h12)) as [X|X].
    - destruct (Pa X) as [U1 U2], (P2a X) as [U3 U4].
      assert (h_dbl h2 Vpz * h_dbl h2 Vpz = h_dbl h12 Vpz * h_dbl h12 Vpz).
      { unfold on_shell in U1, U3. unfold pz_room in Rm. lra. }
      nra.
    - rewrite Pb, P2b by lra. auto. }
  split.
  - intros d _. destruct (in_dec dblvar_eq_dec d (Vpz :: coord_vars)) as [Hd|Hd]; [|apply F; auto].
    simpl in Hd. destruct Hd as [<- | Hd]; auto.
  - intros i. rewrite S2i, S1i, Si. auto.
Qed.

(** track_many is track_one for each hit, in order, and remembers the result. *)
Theorem C44_track_many (t : MatrixTracking) (c : RCtx) (hs : list RHit) : well_shaped t ->
  exists ls, snd (track_many t c hs) = inr ls /\
    mt_last (fst (track_many t c hs)) = ls /\
    Forall2 (fun h l => snd (track_one t c h) = inr l) hs ls /\
    tm_list (fst (track_many t c hs)) = tm_list t /\
    offset_list (fst (track_many t c hs)) = offset_list t /\
    offset_in (fst (track_many t c hs)) = offset_in t.
Proof.
  intros W.
  assert (K : forall hs t', tm_list t' = tm_list t -> offset_list t' = offset_list t ->
            offset_in t' = offset_in t ->
            exists ls, snd (track_each t' c hs) = inr ls /\
              Forall2 (fun h l => snd (track_one t c h) = inr l) hs ls /\
              tm_list (fst (track_each t' c hs)) = tm_list t /\
              offset_list (fst (track_each t' c hs)) = offset_list t /\
              offset_in (fst (track_each t' c hs)) = offset_in t).
  { clear hs. induction hs as [|h hs IH]; intros t' A B C.
    - exists []. simpl. auto 10.
    - cbn [track_each].
      destruct (C44_track_one t c h W) as (o & E & _).
      assert (E' : track_one t' c h = (mkMT (tm_list t) (offset_list t) (offset_in t) [h :: o],
                                       inr (h :: o))).
      { unfold track_one in *. rewrite A, B, C.
        destruct (track_loop (h, c) (offset_in t) (tm_list t) (offset_list t)); simpl in E;
          inversion E; subst; auto. }
      rewrite E'. destruct (IH (mkMT (tm_list t) (offset_list t) (offset_in t) [h :: o]))
        as (ls & El & Fl & X); auto.
      destruct (track_each _ c hs) as [t'' r]. cbn [fst snd] in *. subst r.
      exists ((h :: o) :: ls). cbn [fst snd]. split; auto. }
  destruct (K hs t) as (ls & El & Fl & X); auto. exists ls. unfold track_many.
  destruct (track_each t c hs) as [t' r]. cbn [fst snd] in *. subst r. cbn. tauto.
Qed.

(** Beside the theorems: a drift that moves x by twice px, with the offset 1 in x at the end. *)
Section Example_C44.
Let row (k : nat) : list R := map (fun j => if Nat.eqb j k then 1 else 0) (seq 0 6).
Let drift : list (list R) := [1; 2; 0; 0; 0; 0] :: map row [1; 2; 3; 4; 5]%nat.
Let off : list R := [1; 0; 0; 0; 0; 0].
Let t : MatrixTracking := mkMT [drift] [off] [0; 0; 0; 0; 0; 0] [].
Let h : RHit := @mkHit RNum
  (fun d => match d with Vx => 10 | Vpx => 3 | Vpz => 4 | Vmass => 12 | Venergy => 13 | _ => 0 end)
  (fun _ => 0%Z).

Example C44_ex (c : RCtx) :
  mt_init [AMat drift] [AMat [off]] (AMat [[0; 0; 0; 0; 0; 0]]) = inr t /\ well_shaped t /\
  exists out, snd (track_one t c h) = inr [h; out] /\
    h_dbl out Vx = 17 /\ h_dbl out Vpx = 3 /\ h_dbl out Venergy = 13 /\ h_dbl out Vpz = 4.
Proof.
  assert (W : well_shaped t).
  { split; [reflexivity|]. split; [|split; [|reflexivity]].
    - intros m [<- | []]. split; [reflexivity|]. intros r Hr. simpl in Hr.
      repeat (destruct Hr as [<- | Hr]; [reflexivity|]). contradiction.
    - intros o [<- | []]. reflexivity. }
  split; [reflexivity|]. split; [exact W|].
  destruct (C44_track_one t c h W) as (outs & E & _ & L & H).
  destruct outs as [|out [|]]; try discriminate. exists out. split; auto.
  destruct (H 0%nat out drift off eq_refl eq_refl eq_refl) as (T & [P _] & S).
  assert (X0 : h_dbl out Vx = 17).
  { pose proof (T 0%nat ltac:(lia)) as X. unfold coordinate, ent in X. simpl in X. lra. }
  assert (X1 : h_dbl out Vpx = 3).
  { pose proof (T 1%nat ltac:(lia)) as X. unfold coordinate, ent in X. simpl in X. lra. }
  assert (X3 : h_dbl out Vpy = 0).
  { pose proof (T 3%nat ltac:(lia)) as X. unfold coordinate, ent in X. simpl in X. lra. }
  assert (X5 : h_dbl out Venergy = 13).
  { pose proof (T 5%nat ltac:(lia)) as X. unfold coordinate, ent in X. simpl in X. lra. }
  assert (Xm : h_dbl out Vmass = 12).
  { rewrite (proj1 S) by (simpl; intuition discriminate). reflexivity. }
  assert (Rm : pz_room out = 16) by (unfold pz_room; rewrite X1, X3, X5, Xm; lra).
  rewrite Rm in P. destruct (P ltac:(lra)) as [Ho Hp].
  unfold on_shell in Ho. rewrite X1, X3, X5, Xm in Ho. repeat split; auto. nra.
Qed.
End Example_C44.

Print Assumptions C44_constructor.
Print Assumptions C44_track_one.
Print Assumptions C44_identity.
Print Assumptions C44_compose.
Print Assumptions C44_track_many.
