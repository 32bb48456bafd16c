From Coq Require Import ZArith List Bool String Lia Permutation Sorted.
From Verif Require Import Num WeightModel WeightSpec WeightProofs PyLibModel PyLibProofs
  HitcoreModel HitcoreSpec HitcoreProofs BunchModel BunchSpec.
Import ListNotations.
Open Scope string_scope.
Open Scope list_scope.

(** ---- C15, C16: container ---- *)
Lemma set_nth_app {A} (l r : list A) x y : set_nth (l ++ y :: r) (List.length l) x = l ++ x :: r.
Proof. induction l; simpl; auto. f_equal; auto. Qed.

Lemma core_set_end core l :
  core_set_item core (List.length core) l = core ++ [Some l].
Proof.
  unfold core_set_item. replace (S (List.length core) - List.length core) with 1 by lia.
  simpl. apply set_nth_app.
Qed.

Lemma core_set_in core i l : i < List.length core ->
  core_set_item core i l = set_nth core i (Some l).
Proof.
  intros H. unfold core_set_item. replace (S i - List.length core) with 0 by lia.
  simpl. rewrite app_nil_r. reflexivity.
Qed.

Lemma append_step b l : in_step b -> in_step (append b l).
Proof.
  unfold in_step, append; simpl. intros H. rewrite H, map_app.
  rewrite <- (map_length (@Some nat) (b_hits b)). apply core_set_end.
Qed.

Lemma list_index_nonneg n i k : (0 <= i)%Z -> list_index n i = Some k ->
  k = Z.to_nat i /\ k < n.
Proof.
  unfold list_index. intros Hi.
  destruct (Z.leb_spec 0 i); try lia. destruct (Z.ltb_spec i (Z.of_nat n)); simpl.
  - intros E; inversion E; subst. lia.
  - destruct (Z.ltb_spec i 0); try lia. discriminate.
Qed.

Lemma list_index_range n i :
  (- Z.of_nat n <= i < Z.of_nat n)%Z <-> list_index n i <> None.
Proof.
  unfold list_index.
  destruct (Z.leb_spec 0 i); destruct (Z.ltb_spec i (Z.of_nat n)); simpl;
    destruct (Z.ltb_spec i 0); simpl; try lia; try (destruct (Z.leb_spec (- Z.of_nat n) i)); simpl;
    split; intros; try congruence; try lia.
Qed.

Lemma list_index_neg n i : (- Z.of_nat n <= i < 0)%Z ->
  list_index n i = Some (Z.to_nat (Z.of_nat n + i)).
Proof.
  intros H. unfold list_index. destruct (Z.leb_spec 0 i); try lia. simpl.
  destruct (Z.ltb_spec i 0); try lia. destruct (Z.leb_spec (- Z.of_nat n) i); try lia.
  reflexivity.
Qed.

Lemma setitem_step b i l : (0 <= i)%Z -> in_step b -> in_step (fst (setitem b i l)).
Proof.
  unfold in_step, setitem. intros Hi H.
  destruct (list_index (List.length (b_hits b)) i) as [k|] eqn:E; simpl; auto.
  destruct (list_index_nonneg _ _ _ Hi E) as [-> Hk].
  rewrite map_set_nth, <- H. unfold core_index. destruct (Z.ltb_spec i 0); try lia.
  apply core_set_in. rewrite H, map_length. exact Hk.
Qed.

Lemma fill_core_step hs : forall pre,
  fill_core (map Some pre) (List.length pre) hs = map Some (pre ++ hs).
Proof.
  induction hs as [|l hs IH]; simpl; intros pre.
  - rewrite app_nil_r. reflexivity.
  - rewrite <- (map_length (@Some nat) pre), core_set_end, map_length.
    replace (map Some pre ++ [Some l]) with (map Some (pre ++ [l])) by (rewrite map_app; reflexivity).
    replace (S (List.length pre)) with (List.length (pre ++ [l])) by (rewrite app_length; simpl; lia).
    rewrite IH, <- app_assoc. reflexivity.
Qed.

Lemma fill_core_all hs : fill_core [] 0 hs = map Some hs.
Proof. exact (fill_core_step hs []). Qed.

Lemma all_some_map {A B} (f : A -> option B) (g : A -> B) l :
  (forall x, In x l -> f x = Some (g x)) -> all_some (map f l) = Some (map g l).
Proof.
  induction l as [|x l IH]; simpl; intros H; auto.
  rewrite (H x) by auto. rewrite IH by auto. reflexivity.
Qed.

Lemma all_some_inv {A B} (f : A -> option B) l vs :
  all_some (map f l) = Some vs -> map f l = map Some vs.
Proof.
  revert vs; induction l as [|x l IH]; simpl; intros vs H.
  - inversion H. reflexivity.
  - destruct (f x) as [v|]; [|discriminate].
    destruct (all_some (map f l)) as [r|] eqn:E; [|discriminate].
    simpl in H. inversion H; subst. simpl. rewrite (IH r); auto.
Qed.

Section P.
  Variable N : NumOps.
  Notation World := (World N).
  Variable extra : World -> list nat -> string -> nat -> option (PyVal N).
  Variable cmp : PyVal N -> N -> CmpRes.
  Variable scale : World -> Bunch -> string -> N -> option N.

  Lemma remove_step w d : forall b, in_step b ->
    in_step (fst (conditional_remove extra cmp scale w b d)).
  Proof.
    induction d as [|[name c0] d IH]; simpl; intros b H; auto.
    destruct (scale w b name c0) as [c|]; auto.
    destruct (list_get_hit_variable extra w (b_hits b) name) as [vs|]; auto.
    destruct (keep_loop cmp c (b_hits b) vs) as [hs|]; auto.
    apply IH. unfold in_step; simpl. apply fill_core_all.
  Qed.

  Lemma brun_step p : Forall plain_op p -> in_step (brun extra cmp scale p).
  Proof.
    unfold brun. intros Hp.
    assert (G : forall b, in_step b -> in_step (fold_left (fun b op => fst (bexec extra cmp scale b op)) p b)).
    { induction Hp as [|op p Hop Hp IH]; simpl; auto. intros b Hb. apply IH.
      destruct op; simpl in *; auto using append_step, setitem_step, remove_step. contradiction. }
    apply G. reflexivity.
  Qed.

  (** ---- C19 ---- *)
  Definition val0 (w : World) (name : string) (l : nat) : PyVal N :=
    match hit_get w l name with Some v => v | None => POther end.

  Lemma value_list w hits name hs :
    (forall l, In l hs -> hit_get w l name <> None) ->
    all_some (map (get_hit_variable extra w hits name) hs) = Some (map (val0 w name) hs).
  Proof.
    intros H. apply all_some_map. intros l Hl. unfold get_hit_variable, val0.
    specialize (H l Hl). destruct (hit_get w l name); congruence.
  Qed.

  Definition firesb (c : N) (v : PyVal N) : bool :=
    match cmp v c with CBool b => b | _ => false end.

  Lemma keep_filter c (f : nat -> PyVal N) hs : total cmp ->
    keep_loop cmp c hs (map f hs) = Some (filter (fun l => negb (firesb c (f l))) hs).
  Proof.
    intros T. induction hs as [|l hs IH]; simpl; auto.
    unfold firesb at 1. destruct (T (f l) c) as [E|E]; rewrite E; simpl; rewrite IH; reflexivity.
  Qed.

  Lemma remove_filter w (d : list (string * N)) : total cmp ->
    forall b, in_step b ->
    (forall l n c, In l (b_hits b) -> In (n, c) d -> hit_get w l n <> None) ->
    conditional_remove extra cmp no_scale w b d =
    (let hs := filter (fun l => forallb (fun p => negb (firesb (snd p) (val0 w (fst p) l))) d)
                      (b_hits b) in
     mkBunch hs (map Some hs), true).
  Proof.
    intros T. induction d as [|[n c] d IH]; simpl; intros b Hb Hv.
    - assert (E : filter (fun _ => true) (b_hits b) = b_hits b).
      { clear Hv. induction (b_hits b) as [|z zs IHz]; simpl; [reflexivity | f_equal; exact IHz]. }
      rewrite E, <- Hb. destruct b; reflexivity.
    - unfold list_get_hit_variable. rewrite value_list by (intros; eapply Hv; eauto).
      rewrite keep_filter by auto. rewrite IH.
      + cbn [b_hits]. assert (E : forall (f g : nat -> bool) l,
          filter f (filter g l) = filter (fun x => g x && f x)%bool l).
        { intros f g l. induction l as [|x l IHl]; simpl; auto.
          destruct (g x); simpl; [destruct (f x); rewrite IHl; reflexivity | exact IHl]. }
        rewrite E. reflexivity.
      + unfold in_step; simpl. apply fill_core_all.
      + cbn [b_hits]. intros l n' c' Hl Hd. apply filter_In in Hl. eapply Hv; [apply Hl|eauto].
  Qed.


End P.

(** ---- writing weights ---- *)
Section Q.
  Variable N : NumOps.
  Notation World := (World N).

  Lemma cur_ctx_after (w : World) l n v :
    w_cur (fst (hit_set w l n v)) = w_cur w.
  Proof.
    unfold hit_set. destruct (w_hits w l); auto.
    destruct (core_set (cur_ctx w) h n v) as [[h' c'] b]. reflexivity.
  Qed.

  Lemma is_hit_after (w : World) l n v x :
    is_hit (fst (hit_set w l n v)) x <-> is_hit w x.
  Proof.
    unfold is_hit, hit_set. destruct (w_hits w l) eqn:E; [|tauto].
    destruct (core_set (cur_ctx w) h n v) as [[h' c'] b]. simpl. unfold fupd.
    destruct (Nat.eqb_spec l x); [subst|tauto]. split; congruence.
  Qed.

  Lemma local_set_get (w : World) l x :
    is_hit w l -> hit_get (fst (hit_set w l "local_weight" (PFloat x))) l "local_weight" =
                  Some (PFloat x).
  Proof.
    intros H. apply set_get; auto. constructor. simpl; tauto.
  Qed.

  (** Every reading of another hit. *)
  Lemma local_set_other (w : World) l x l' n : l' <> l ->
    hit_get (fst (hit_set w l "local_weight" (PFloat x))) l' n = hit_get w l' n.
  Proof.
    intros Hne. unfold hit_set. destruct (w_hits w l) as [h|] eqn:E; auto.
    unfold core_set. simpl assoc. cbv iota beta zeta. simpl as_double. cbv iota beta zeta.
    simpl fst. rewrite hit_get_after. destruct (Nat.eqb_spec l l'); [congruence|]. reflexivity.
  Qed.

  Lemma local_set_global (w : World) l x l' :
    hit_get (fst (hit_set w l "local_weight" (PFloat x))) l' "global_weight" =
    hit_get w l' "global_weight".
  Proof.
    unfold hit_set. destruct (w_hits w l) as [h|] eqn:E; auto.
    unfold core_set. simpl assoc. cbv iota beta zeta. simpl as_double. cbv iota beta zeta.
    simpl fst. rewrite hit_get_after. unfold hit_get.
    destruct (Nat.eqb_spec l l'); [subst; rewrite E|]; reflexivity.
  Qed.

  Lemma global_set_other (w : World) l x l' n :
    wf N w -> is_hit w l -> is_hit w l' -> track w l' <> track w l ->
    hit_get (fst (hit_set w l "global_weight" (PFloat x))) l' n = hit_get w l' n.
  Proof.
    intros Hw H H' Ht. unfold is_hit in *. unfold hit_set.
    destruct (w_hits w l) as [h|] eqn:E1; [|congruence].
    destruct (w_hits w l') as [h'|] eqn:E2; [|congruence].
    rewrite (track_eq_id N _ _ _ _ _ E2 E1) in Ht.
    unfold core_set. simpl assoc. cbv iota beta zeta. simpl as_double. cbv iota beta zeta.
    simpl fst. rewrite hit_get_after.
    assert (Hsel : (if Nat.eqb l l' then Some h else w_hits w l') = Some h').
    { destruct (Nat.eqb_spec l l'); auto. subst. congruence. }
    rewrite Hsel. unfold hit_get. rewrite E2. apply core_get_ext; auto.
    rewrite get_weight_set by (apply wf_cur_ok, Hw).
    destruct (hid_dec (weight_id h') (weight_id h)); congruence.
  Qed.

  Lemma global_set_stored (w : World) l x l' n : stored n ->
    hit_get (fst (hit_set w l "global_weight" (PFloat x))) l' n = hit_get w l' n.
  Proof.
    intros Hs. apply set_frame; auto. right.
    destruct Hs as [Hs|Hs]; simpl in Hs;
      repeat (destruct Hs as [<-|Hs]; [vm_compute; discriminate|]); contradiction.
  Qed.

  Lemma local_set_stored (w : World) l x l' n : stored n -> n <> "local_weight" ->
    hit_get (fst (hit_set w l "local_weight" (PFloat x))) l' n = hit_get w l' n.
  Proof.
    intros Hs Hne. apply set_frame; auto. right.
    destruct Hs as [Hs|Hs]; simpl in Hs;
      repeat (destruct Hs as [<-|Hs]; [try (exfalso; apply Hne; reflexivity); vm_compute; discriminate|]); contradiction.
  Qed.

  Lemma hit_set_ok (w : World) l g x : is_hit w l ->
    snd (hit_set w l (weight_name g) (PFloat x)) = true.
  Proof.
    unfold is_hit, hit_set. destruct (w_hits w l) as [h|]; [|congruence]. intros _.
    destruct g; reflexivity.
  Qed.

  Lemma hit_set_int_weight (w : World) l g z :
    hit_set w l (weight_name g) (PInt z) = hit_set w l (weight_name g) (PFloat (nofZ z)).
  Proof. unfold hit_set. destruct (w_hits w l) as [h|]; auto. destruct g; reflexivity. Qed.

  Notation affected := (@shares_weight N).

  Record similar (w0 w : World) : Prop := {
    sim_wf : wf N w;
    sim_cur : w_cur w = w_cur w0;
    sim_hit : forall l, is_hit w l <-> is_hit w0 l;
    sim_stored : forall l n, stored n -> n <> "local_weight" -> hit_get w l n = hit_get w0 l n
  }.

  Lemma similar_refl (w : World) : wf N w -> similar w w.
  Proof. intros H; constructor; auto; tauto. Qed.

  Lemma similar_track w0 w l : similar w0 w -> track w l = track w0 l.
  Proof.
    intros H. unfold track.
    rewrite !(sim_stored _ _ H) by first [discriminate | right; simpl; tauto]. reflexivity.
  Qed.

  Lemma similar_set w0 w l g x : similar w0 w ->
    similar w0 (fst (hit_set w l (weight_name g) (PFloat x))).
  Proof.
    intros H. constructor.
    - apply wf_hit_set, H.
    - rewrite cur_ctx_after. apply H.
    - intros k. rewrite is_hit_after. apply H.
    - intros k n Hs Hn. rewrite <- (sim_stored _ _ H k n Hs Hn).
      destruct g; [apply global_set_stored | apply local_set_stored]; auto.
  Qed.

  Lemma weight_set_same w0 w g l x y : similar w0 w -> is_hit w0 l -> is_hit w0 y ->
    affected g w0 y l ->
    hit_get (fst (hit_set w l (weight_name g) (PFloat x))) y (weight_name g) = Some (PFloat x).
  Proof.
    intros S Hl Hy Ha. destruct g; simpl in *.
    - apply (gw_set_exact N w l x y); try apply S; auto.
      rewrite !(similar_track _ _ _ S). exact Ha.
    - subst. apply local_set_get, S, Hl.
  Qed.

  Lemma weight_set_other w0 w g l x y n : similar w0 w -> is_hit w0 l -> is_hit w0 y ->
    ~ affected g w0 y l ->
    hit_get (fst (hit_set w l (weight_name g) (PFloat x))) y n = hit_get w y n.
  Proof.
    intros S Hl Hy Ha. destruct g; simpl in *.
    - apply global_set_other; try apply S; auto. rewrite !(similar_track _ _ _ S). exact Ha.
    - apply local_set_other. auto.
  Qed.

  Lemma affected_dec g w0 x l : is_hit w0 x -> is_hit w0 l ->
    affected g w0 x l \/ ~ affected g w0 x l.
  Proof.
    intros Hx Hl. destruct g; simpl.
    - unfold is_hit in *. destruct (w_hits w0 x) as [h|] eqn:E1; [|congruence].
      destruct (w_hits w0 l) as [h'|] eqn:E2; [|congruence].
      rewrite (track_eq_id N _ _ _ _ _ E1 E2).
      destruct (hid_dec (weight_id h) (weight_id h')); auto.
    - lia.
  Qed.

  Lemma affected_trans g w0 x y z : affected g w0 x y -> affected g w0 y z -> affected g w0 x z.
  Proof. destruct g; simpl; congruence. Qed.
  Lemma affected_refl g w0 x : affected g w0 x x.
  Proof. destruct g; simpl; reflexivity. Qed.
  Lemma affected_sym g w0 x y : affected g w0 x y -> affected g w0 y x.
  Proof. destruct g; simpl; auto. Qed.

  (** Readings are determined by the stored variables and the global weight. *)
  Lemma reads_determined (w1 w2 : World) y :
    is_hit w1 y -> is_hit w2 y ->
    (forall n, stored n -> hit_get w1 y n = hit_get w2 y n) ->
    hit_get w1 y "global_weight" = hit_get w2 y "global_weight" ->
    forall n, hit_get w1 y n = hit_get w2 y n.
  Proof.
    unfold is_hit, hit_get. intros H1 H2.
    destruct (w_hits w1 y) as [h1|]; [|congruence]. destruct (w_hits w2 y) as [h2|]; [|congruence].
    intros Hs Hg n. unfold core_get in *. simpl in Hg.
    destruct (assoc get_dbl_map n) as [[d| |]|] eqn:E.
    - assert (St : stored n).
      { apply assoc_in in E. left. simpl in E.
        repeat (destruct E as [E|E]; [inversion E; subst; simpl; tauto|]). contradiction. }
      specialize (Hs n St). rewrite E in Hs. exact Hs.
    - exact Hg.
    - simpl. specialize (Hs "local_weight" ltac:(left; simpl; tauto)). simpl in Hs.
      inversion Hs; inversion Hg. rewrite H0, H3. reflexivity.
    - destruct (assoc get_int_map n) as [i|] eqn:E2; auto.
      assert (St : stored n).
      { apply assoc_in in E2. right. simpl in E2.
        repeat (destruct E2 as [E2|E2]; [inversion E2; subst; simpl; tauto|]). contradiction. }
      specialize (Hs n St). rewrite E, E2 in Hs. exact Hs.
  Qed.

  (** Reading the other weight. *)
  Lemma other_weight_set g (w : World) l x y :
    hit_get (fst (hit_set w l (weight_name g) (PFloat x))) y (weight_name (negb g)) =
    hit_get w y (weight_name (negb g)).
  Proof.
    destruct g; simpl.
    - apply global_set_stored. left; simpl; tauto.
    - apply local_set_global.
  Qed.

  (** A loop that sets the weight of some of the listed hits to 0.  [f w] decides when the
      hit is reached; [idle] is what happens to the other hits. *)
  Variable idle : World -> nat -> World.

  Fixpoint gloop (g : bool) (w : World) (ps : list (nat * (World -> bool))) : World :=
    match ps with
    | [] => w
    | (l, f) :: r =>
        gloop g (if f w then fst (hit_set w l (weight_name g) (PFloat n0)) else idle w l) r
    end.

  (** The idle step is not observable. *)
  Definition idle_ok (w0 : World) : Prop :=
    forall w l, similar w0 w -> is_hit w0 l ->
      similar w0 (idle w l) /\
      forall y n, is_hit w0 y -> hit_get (idle w l) y n = hit_get w y n.

  Lemma gloop_similar g w0 ps :
    idle_ok w0 -> (forall l f, In (l, f) ps -> is_hit w0 l) ->
    forall w, similar w0 w -> similar w0 (gloop g w ps).
  Proof.
    intros Hi. induction ps as [|[l f] ps IH]; simpl; auto. intros Hh w S. apply IH; auto.
    { intros a b Hab. eapply Hh; right; exact Hab. }
    destruct (f w); auto using similar_set. apply Hi; auto. eapply Hh; left; reflexivity.
  Qed.

  Lemma gloop_other_weight g w0 ps :
    idle_ok w0 -> (forall l f, In (l, f) ps -> is_hit w0 l) ->
    forall w y, similar w0 w -> is_hit w0 y ->
    hit_get (gloop g w ps) y (weight_name (negb g)) = hit_get w y (weight_name (negb g)).
  Proof.
    intros Hi. induction ps as [|[l f] ps IH]; simpl; auto. intros Hh w y S Hy.
    assert (Hl : is_hit w0 l) by (eapply Hh; left; reflexivity).
    rewrite IH; auto.
    - destruct (f w); auto. apply other_weight_set. apply (Hi w l S Hl); auto.
    - intros a b Hab. eapply Hh; right; exact Hab.
    - destruct (f w); auto using similar_set. apply (Hi w l S Hl).
  Qed.

  Lemma some_or_none g w0 y (ps : list (nat * (World -> bool))) w1 :
    is_hit w0 y -> (forall l f, In (l, f) ps -> is_hit w0 l) ->
    (exists l' f', In (l', f') ps /\ affected g w0 y l' /\ f' w1 = true) \/
    (forall l' f', In (l', f') ps -> affected g w0 y l' -> f' w1 = false).
  Proof.
    intros Hy. induction ps as [|[l' f'] ps IHp]; intros H1.
    - right. intros ? ? [].
    - destruct IHp as [(a & b & Hab & Q)|Q].
      { intros a b Hab. eapply H1; right; exact Hab. }
      { left. exists a, b. split; [right; exact Hab | exact Q]. }
      assert (Hl' : is_hit w0 l') by (eapply H1; left; reflexivity).
      destruct (affected_dec g w0 y l' Hy Hl') as [Ha'|Ha'].
      + destruct (f' w1) eqn:E1.
        * left. exists l', f'. repeat split; auto. left; reflexivity.
        * right. intros a b [E|Hab] Hq; [inversion E; subst; auto | eauto].
      + right. intros a b [E|Hab] Hq; [inversion E; subst; contradiction | eauto].
  Qed.

  (** The weight after the loop when the decision about a hit depends on readings of that
      hit only. *)
  Lemma gloop_zero g w0 ps :
    idle_ok w0 ->
    (forall l f, In (l, f) ps -> is_hit w0 l) ->
    (forall l f, In (l, f) ps -> forall w1 w2, similar w0 w1 -> similar w0 w2 ->
       (forall n, hit_get w1 l n = hit_get w2 l n) -> f w1 = f w2) ->
    forall w, similar w0 w -> forall y, is_hit w0 y ->
    ((exists l f, In (l, f) ps /\ affected g w0 y l /\ f w = true) ->
       hit_get (gloop g w ps) y (weight_name g) = Some (PFloat n0)) /\
    ((forall l f, In (l, f) ps -> affected g w0 y l -> f w = false) ->
       forall n, hit_get (gloop g w ps) y n = hit_get w y n).
  Proof.
    intros Hi H1 H3. induction ps as [|[l f] ps IH]; intros w S y Hy; simpl.
    - split; [intros (l & f & [] & _) | auto].
    - assert (IH' := IH (fun l f H => H1 l f (or_intror H))
                        (fun l f H => H3 l f (or_intror H))). clear IH.
      assert (Hl : is_hit w0 l) by (eapply H1; left; reflexivity).
      set (w1 := if f w then _ else idle w l).
      assert (S1 : similar w0 w1).
      { unfold w1; destruct (f w); auto using similar_set. apply Hi; auto. }
      destruct (IH' w1 S1 y Hy) as [I1 I2]. clear IH'.
      destruct (f w) eqn:Ef.
      + destruct (affected_dec g w0 y l Hy Hl) as [Ha|Ha].
        * split.
          -- intros _.
             destruct (some_or_none g w0 y ps w1 Hy (fun l f H => H1 l f (or_intror H))) as [Hd|Hd];
               [exact (I1 Hd)|].
             rewrite (I2 Hd). unfold w1. eapply weight_set_same; eauto.
          -- intros Hn. specialize (Hn l f (or_introl eq_refl) Ha). congruence.
        * assert (Hkeep : forall l' f', In (l', f') ps -> affected g w0 y l' -> f' w1 = f' w).
          { intros l' f' Hin Ha'. apply (H3 l' f' (or_intror Hin)); auto.
            intros n. unfold w1. eapply weight_set_other; eauto.
            - eapply H1; right; exact Hin.
            - intros Hc. apply Ha. eapply affected_trans; eauto. }
          split.
          -- intros (l' & f' & [E|Hin] & Ha' & Hf'); [inversion E; subst; contradiction|].
             apply I1. exists l', f'. repeat split; auto. rewrite (Hkeep l' f' Hin Ha'); auto.
          -- intros Hn n. rewrite I2.
             ++ unfold w1. eapply weight_set_other; eauto.
             ++ intros l' f' Hin Ha'. rewrite (Hkeep l' f' Hin Ha'); auto. apply (Hn l' f'); auto.
      + assert (Hq : forall z n, is_hit w0 z -> hit_get w1 z n = hit_get w z n).
        { intros z n Hz. unfold w1. apply Hi; auto. }
        assert (Hkeep : forall l' f', In (l', f') ps -> f' w1 = f' w).
        { intros l' f' Hin. apply (H3 l' f' (or_intror Hin)); auto.
          intros n. apply Hq. eapply H1; right; exact Hin. }
        split.
        * intros (l' & f' & [E|Hin] & Ha' & Hf'); [inversion E; subst; congruence|].
          apply I1. exists l', f'. repeat split; auto. rewrite (Hkeep l' f' Hin); auto.
        * intros Hn n. rewrite I2, Hq; auto. intros l' f' Hin Ha'. rewrite (Hkeep l' f' Hin); auto.
          apply (Hn l' f'); auto.
  Qed.
End Q.

Lemma idle_ok_id N (w0 : World N) : idle_ok N (fun w _ => w) w0.
Proof. intros w l S H. auto. Qed.

(** ---- C18: cut ---- *)
Section Cut.
  Variable N : NumOps.
  Hypothesis zero_int : @nofZ N 0 = n0.
  Notation World := (World N).
  Variable extra : World -> list nat -> string -> nat -> option (PyVal N).
  Variable cmp : PyVal N -> N -> CmpRes.
  Hypothesis T : total cmp.
  Notation fires := (firesb N cmp).
  Notation loop := (gloop N (fun w _ => w)).

  Lemma core_zero_is_set (w : World) l h g : w_cur w = 0 -> w_hits w l = Some h ->
    core_zero w l h g = fst (hit_set w l (weight_name g) (PFloat n0)).
  Proof.
    intros Hc Hl. unfold hit_set. rewrite Hl. destruct w as [hs nx st cur]. simpl in Hc. subst.
    destruct g; reflexivity.
  Qed.

  Lemma core_value (w : World) l h name k : w_cur w = 0 -> w_hits w l = Some h ->
    assoc get_dbl_map name = Some k ->
    hit_get w l name = Some (PFloat (read_dbl (core_ctx w) h k)).
  Proof.
    intros Hc Hl Hk. unfold hit_get, core_get. rewrite Hl, Hk. unfold core_ctx, cur_ctx.
    rewrite Hc. reflexivity.
  Qed.

  Definition core_dec (name : string) (c : N) (l : nat) (w : World) : bool :=
    match hit_get w l name with Some v => fires c v | None => false end.

  Lemma cut_core_loop g w0 name k c : assoc get_dbl_map name = Some k -> w_cur w0 = 0 ->
    forall hs w, similar N w0 w -> (forall l, In l hs -> is_hit w0 l) ->
    cut_double_loop cmp w (map Some hs) k c g =
    (loop g w (map (fun l => (l, core_dec name c l)) hs), true).
  Proof.
    intros Hk Hc0. induction hs as [|l hs IH]; intros w S Hh; simpl; auto.
    assert (Hl : is_hit w l) by (apply S, Hh; left; reflexivity).
    assert (Hc : w_cur w = 0) by (rewrite (sim_cur _ _ _ S); auto).
    unfold is_hit in Hl. destruct (w_hits w l) as [h|] eqn:E; [|congruence].
    unfold core_dec at 1. rewrite (core_value _ _ _ _ _ Hc E Hk).
    unfold firesb. destruct (T (PFloat (read_dbl (core_ctx w) h k)) c) as [->| ->].
    - rewrite (core_zero_is_set _ _ _ _ Hc E). apply IH; [apply similar_set; exact S|].
      intros; apply Hh; right; auto.
    - apply IH; auto. intros; apply Hh; right; auto.
  Qed.

  Lemma cut_py_loop g w0 c : forall hs vs w, List.length hs = List.length vs ->
    similar N w0 w -> (forall l, In l hs -> is_hit w0 l) ->
    py_cut_loop cmp w hs vs c (weight_name g) =
    (loop g w (map (fun p => (fst p, fun _ => fires c (snd p))) (combine hs vs)), true).
  Proof.
    induction hs as [|l hs IH]; destruct vs as [|v vs]; simpl; intros w Hlen S Hh; auto;
      try discriminate.
    unfold firesb at 1. destruct (T v c) as [->| ->]; simpl.
    - rewrite hit_set_int_weight, zero_int.
      assert (Hok : snd (hit_set w l (weight_name g) (PFloat n0)) = true).
      { apply hit_set_ok. apply S, Hh; left; reflexivity. }
      pose proof (similar_set N w0 w l g n0 S) as S1.
      destruct (hit_set w l (weight_name g) (PFloat n0)) as [w1 ok]; simpl in *. subst ok.
      apply IH; auto.
    - apply IH; auto.
  Qed.

  (** The result of a cut on one variable. *)
  Definition cut_result (g : bool) (w w' : World) (sel : nat -> Prop) : Prop :=
    (forall y, is_hit w y -> (exists l, sel l /\ shares_weight g w y l) ->
        hit_get w' y (weight_name g) = Some (PFloat n0)) /\
    (forall y, is_hit w y -> ~ (exists l, sel l /\ shares_weight g w y l) ->
        forall n, hit_get w' y n = hit_get w y n) /\
    (forall y, is_hit w y -> hit_get w' y (weight_name (negb g)) = hit_get w y (weight_name (negb g))) /\
    (forall y n, stored n -> n <> "local_weight" -> hit_get w' y n = hit_get w y n).

  Lemma loop_result g w0 w ps (sel : nat -> Prop) :
    similar N w0 w ->
    (forall l f, In (l, f) ps -> is_hit w0 l) ->
    (forall l f, In (l, f) ps -> forall w1 w2, similar N w0 w1 -> similar N w0 w2 ->
       (forall n, hit_get w1 l n = hit_get w2 l n) -> f w1 = f w2) ->
    (forall l f, In (l, f) ps -> f w = true -> sel l) ->
    (forall l, sel l -> exists f, In (l, f) ps /\ f w = true) ->
    w0 = w ->
    cut_result g w0 (loop g w ps) sel /\ similar N w0 (loop g w ps).
  Proof.
    intros S H1 H3 Ha Hb ->.
    pose proof (idle_ok_id N w) as Hi.
    pose proof (gloop_similar N _ g w ps Hi H1 w S) as S'.
    split; [|exact S']. repeat split.
    - intros y Hy (l & Hl & Hs). destruct (gloop_zero N _ g w ps Hi H1 H3 w S y Hy) as [Q _].
      apply Q. destruct (Hb l Hl) as (f & Hf & Hft). exists l, f. auto.
    - intros y Hy Hn. destruct (gloop_zero N _ g w ps Hi H1 H3 w S y Hy) as [_ Q].
      apply Q. intros l f Hin Haf. destruct (f w) eqn:E; auto. exfalso. apply Hn.
      exists l. split; auto. eapply Ha; eauto.
    - intros y Hy. apply (gloop_other_weight N _ g w ps Hi H1 w y S Hy).
    - intros y n Hs Hn. apply (sim_stored _ _ _ S'); auto.
  Qed.

  Definition sel_of (w : World) (hits : list nat) (name : string) (c : N) (l : nat) : Prop :=
    In l hits /\ exists v, get_hit_variable extra w hits name l = Some v /\ cmp v c = CBool true.

  Lemma fires_iff c v : fires c v = true <-> cmp v c = CBool true.
  Proof. unfold firesb. destruct (T v c) as [->| ->]; split; congruence. Qed.

  Lemma py_cut_result (w : World) b name c g :
    wf N w -> (forall l, In l (b_hits b) -> is_hit w l) ->
    (forall l, In l (b_hits b) -> get_hit_variable extra w (b_hits b) name l <> None) ->
    let (w', ok) := py_cut extra cmp w b name c (weight_name g) in
    ok = true /\ cut_result g w w' (sel_of w (b_hits b) name c) /\ similar N w w'.
  Proof.
    intros Hw Hh Hv. unfold py_cut, list_get_hit_variable.
    set (val := fun l => match get_hit_variable extra w (b_hits b) name l with
                         | Some v => v | None => POther end).
    assert (E : all_some (map (get_hit_variable extra w (b_hits b) name) (b_hits b)) =
                Some (map val (b_hits b))).
    { apply all_some_map. intros l Hl. specialize (Hv l Hl). unfold val.
      destruct (get_hit_variable extra w (b_hits b) name l); congruence. }
    rewrite E.
    pose proof (similar_refl N w Hw) as S.
    rewrite (cut_py_loop g w c (b_hits b) (map val (b_hits b)) w (eq_sym (map_length _ _)) S Hh).
    split; auto.
    assert (Hin : forall l f, In (l, f) (map (fun p => (fst p, fun _ : World => fires c (snd p)))
                    (combine (b_hits b) (map val (b_hits b)))) <->
                  In l (b_hits b) /\ f = fun _ => fires c (val l)).
    { intros l f. rewrite in_map_iff. split.
      - intros ([l' v] & E1 & Hc). simpl in E1. inversion E1; subst.
        assert (G : forall hs, In (l, v) (combine hs (map val hs)) -> In l hs /\ v = val l).
        { induction hs as [|a hs IH]; simpl; [tauto|]. intros [Q|Q]; [inversion Q; auto|].
          destruct (IH Q); auto. }
        destruct (G _ Hc) as [G1 G2]. subst. auto.
      - intros [Hl ->]. exists (l, val l). split; auto.
        assert (G : forall hs, In l hs -> In (l, val l) (combine hs (map val hs))).
        { induction hs as [|a hs IH]; simpl; [tauto|]. intros [->|Q]; auto. }
        apply G, Hl. }
    apply loop_result; auto.
    - intros l f Hi. apply Hin in Hi. apply Hh, Hi.
    - intros l f Hi w1 w2 _ _ _. apply Hin in Hi. destruct Hi as [_ ->]. reflexivity.
    - intros l f Hi Hf. apply Hin in Hi. destruct Hi as [Hl ->]. split; auto.
      specialize (Hv l Hl). unfold val in Hf.
      destruct (get_hit_variable extra w (b_hits b) name l) as [v|]; [|congruence].
      exists v. split; auto. apply fires_iff, Hf.
    - intros l [Hl (v & Hg & Hf)]. exists (fun _ => fires c (val l)). split.
      + apply Hin. auto.
      + unfold val. rewrite Hg. apply fires_iff, Hf.
  Qed.

  Lemma core_key_assoc name k : core_float_key name = Some k -> assoc get_dbl_map name = Some k.
  Proof. unfold core_float_key. destruct (existsb _ _); congruence. Qed.

  Lemma core_cut_result (w : World) b name k c g :
    wf N w -> w_cur w = 0 -> in_step b -> (forall l, In l (b_hits b) -> is_hit w l) ->
    assoc get_dbl_map name = Some k ->
    let (w', ok) := cut_double_loop cmp w (b_core b) k c g in
    ok = true /\ cut_result g w w' (sel_of w (b_hits b) name c) /\ similar N w w'.
  Proof.
    intros Hw Hc Hb Hh Hk. rewrite Hb.
    pose proof (similar_refl N w Hw) as S.
    rewrite (cut_core_loop g w name k c Hk Hc (b_hits b) w S Hh). split; auto.
    assert (Hin : forall l f, In (l, f) (map (fun l => (l, core_dec name c l)) (b_hits b)) <->
                  In l (b_hits b) /\ f = core_dec name c l).
    { intros l f. rewrite in_map_iff. split.
      - intros (l' & E1 & Hl). inversion E1; subst. auto.
      - intros [Hl ->]. exists l. auto. }
    assert (Hval : forall l, In l (b_hits b) -> exists v, hit_get w l name = Some v).
    { intros l Hl. specialize (Hh l Hl). unfold is_hit in Hh.
      destruct (w_hits w l) as [h|] eqn:E; [|congruence].
      eexists. eapply core_value; eauto. }
    apply loop_result; auto.
    - intros l f Hi. apply Hin in Hi. apply Hh, Hi.
    - intros l f Hi w1 w2 _ _ Hr. apply Hin in Hi. destruct Hi as [_ ->].
      unfold core_dec. rewrite Hr. reflexivity.
    - intros l f Hi Hf. apply Hin in Hi. destruct Hi as [Hl ->]. split; auto.
      unfold core_dec in Hf. unfold get_hit_variable. destruct (hit_get w l name) as [v|]; [|discriminate].
      exists v. split; auto. apply fires_iff, Hf.
    - intros l [Hl (v & Hg & Hf)]. exists (core_dec name c l). split; [apply Hin; auto|].
      destruct (Hval l Hl) as [v' Hv']. unfold get_hit_variable in Hg. unfold core_dec.
      rewrite Hv' in *. inversion Hg; subst. apply fires_iff, Hf.
  Qed.

  Lemma cut_one_result (w : World) b name c g :
    wf N w -> w_cur w = 0 -> in_step b -> (forall l, In l (b_hits b) -> is_hit w l) ->
    (forall l, In l (b_hits b) -> get_hit_variable extra w (b_hits b) name l <> None) ->
    let (w', ok) := cut_one extra cmp w b name c g in
    ok = true /\ cut_result g w w' (sel_of w (b_hits b) name c) /\ similar N w w'.
  Proof.
    intros Hw Hc Hb Hh Hv. unfold cut_one.
    destruct (core_float_key name) as [k|] eqn:E.
    - apply core_cut_result; auto. apply core_key_assoc, E.
    - apply py_cut_result; auto.
  Qed.

  Lemma cut_results_agree g (w w1 w2 : World) sel :
    (forall y, is_hit w y -> (exists l, sel l /\ shares_weight g w y l) \/
                             ~ (exists l, sel l /\ shares_weight g w y l)) ->
    cut_result g w w1 sel -> cut_result g w w2 sel -> similar N w w1 -> similar N w w2 ->
    forall y n, is_hit w y -> hit_get w1 y n = hit_get w2 y n.
  Proof.
    intros Hd (A1 & A2 & A3 & A4) (B1 & B2 & B3 & B4) S1 S2 y n Hy.
    assert (Hwt : hit_get w1 y (weight_name g) = hit_get w2 y (weight_name g)).
    { destruct (Hd y Hy) as [H|H].
      - rewrite A1, B1; auto.
      - rewrite A2, B2; auto. }
    assert (Hwo : hit_get w1 y (weight_name (negb g)) = hit_get w2 y (weight_name (negb g))).
    { rewrite A3, B3; auto. }
    apply reads_determined.
    - apply S1, Hy.
    - apply S2, Hy.
    - intros m Hm. destruct (string_dec m "local_weight") as [->|Hne].
      + destruct g; [exact Hwo | exact Hwt].
      + rewrite A4, B4; auto.
    - destruct g; [exact Hwt | exact Hwo].
  Qed.

  Lemma sel_dec g (w : World) hits name c y :
    is_hit w y -> (forall l, In l hits -> is_hit w l) ->
    (exists l, sel_of w hits name c l /\ shares_weight g w y l) \/
    ~ (exists l, sel_of w hits name c l /\ shares_weight g w y l).
  Proof.
    intros Hy Hh.
    set (P := fun l => (exists v, get_hit_variable extra w hits name l = Some v /\ cmp v c = CBool true)
                       /\ shares_weight g w y l).
    assert (D : forall l, In l hits -> P l \/ ~ P l).
    { intros l Hl. unfold P. destruct (get_hit_variable extra w hits name l) as [v|].
      - destruct (T v c) as [E|E].
        + destruct (affected_dec N g w y l Hy (Hh l Hl)) as [A|A]; [left; eauto | right; tauto].
        + right. intros [(v' & E1 & E2) _]. inversion E1; subst. congruence.
      - right. intros [(v' & E1 & _) _]. discriminate. }
    assert (G : forall hs, (forall l, In l hs -> In l hits) ->
                (exists l, In l hs /\ P l) \/ ~ (exists l, In l hs /\ P l)).
    { induction hs as [|a hs IH]; intros Hi.
      - right. intros (l & [] & _).
      - destruct (D a (Hi a (or_introl eq_refl))) as [A|A].
        + left. exists a. simpl; auto.
        + destruct IH as [(l & L1 & L2)|L]; [intros; apply Hi; right; auto| |].
          * left. exists l. simpl; auto.
          * right. intros (l & [<-|L1] & L2); [tauto|]. apply L. eauto. }
    destruct (G hits (fun l H => H)) as [(l & L1 & L2 & L3)|L].
    - left. exists l. split; auto. split; auto.
    - right. intros (l & (L1 & L2) & L3). apply L. exists l. split; auto. split; auto.
  Qed.

  (** Cut on several variables that are not weights. *)
  Definition plain_name (n : string) : Prop := stored n /\ n <> "local_weight".

  Lemma cut_dict_result g (d : list (string * N)) : forall w0 (w : World) b (before : nat -> Prop),
    similar N w0 w -> w_cur w0 = 0 -> in_step b -> (forall l, In l (b_hits b) -> is_hit w0 l) ->
    (forall n c, In (n, c) d -> plain_name n) ->
    cut_result g w0 w before ->
    (forall y, is_hit w0 y -> (exists l, before l /\ shares_weight g w0 y l) \/
                             ~ (exists l, before l /\ shares_weight g w0 y l)) ->
    let (w', ok) := cut extra cmp no_scale w b d g in
    ok = true /\ similar N w0 w' /\
    cut_result g w0 w' (fun l => before l \/ exists n c, In (n, c) d /\ sel_of w0 (b_hits b) n c l).
  Proof.
    induction d as [|[n c] d IH]; intros w0 w b before S Hc Hb Hh Hn R D; simpl.
    - split; auto. split; auto. destruct R as (R1 & R2 & R3 & R4). repeat split; auto.
      + intros y Hy (l & [Hl|(? & ? & [] & _)] & Hs). apply R1; eauto.
      + intros y Hy Hno. apply R2; auto. intros (l & Hl & Hs). apply Hno. exists l; auto.
    - destruct (Hn n c (or_introl eq_refl)) as [Hst Hnl].
      assert (Hgv : forall l, In l (b_hits b) ->
                get_hit_variable extra w (b_hits b) n l = hit_get w0 l n /\ hit_get w0 l n <> None).
      { intros l Hl. assert (Hil : is_hit w0 l) by auto.
        assert (E : hit_get w0 l n <> None).
        { unfold is_hit, hit_get in *. destruct (w_hits w0 l) as [h|]; [|congruence].
          unfold core_get. destruct (stored_get n Hst) as [(x & G1 & _)|(i & G1 & G2 & _)];
            rewrite G1; [|rewrite G2]; discriminate. }
        split; auto. unfold get_hit_variable. rewrite (sim_stored _ _ _ S) by auto.
        destruct (hit_get w0 l n); congruence. }
      pose proof (cut_one_result w b n c g (sim_wf _ _ _ S)) as Q.
      destruct (cut_one extra cmp w b n c g) as [w1 ok].
      destruct Q as (-> & Q & S1).
      { rewrite (sim_cur _ _ _ S). auto. }
      { auto. }
      { intros l Hl. apply S, Hh, Hl. }
      { intros l Hl. destruct (Hgv l Hl) as [-> ?]. auto. }
      assert (S1' : similar N w0 w1).
      { constructor.
        - apply S1.
        - rewrite (sim_cur _ _ _ S1). apply S.
        - intros l. rewrite (sim_hit _ _ _ S1). apply S.
        - intros l m Hm1 Hm2. rewrite (sim_stored _ _ _ S1) by auto. apply (sim_stored _ _ _ S); auto. }
      assert (Hshare : forall y l, shares_weight g w y l <-> shares_weight g w0 y l).
      { intros y l. destruct g; simpl; [|tauto]. rewrite !(similar_track _ _ _ _ S). tauto. }
      assert (Hsel : forall l, sel_of w (b_hits b) n c l <-> sel_of w0 (b_hits b) n c l).
      { intros l. unfold sel_of. split; intros [Hl H].
        - split; auto. destruct (Hgv l Hl) as [E1 E2]. rewrite E1 in H.
          unfold get_hit_variable. destruct (hit_get w0 l n); [auto|congruence].
        - split; auto. destruct (Hgv l Hl) as [E1 E2]. rewrite E1. unfold get_hit_variable in H.
          destruct (hit_get w0 l n); [auto|congruence]. }
      specialize (IH w0 w1 b (fun l => before l \/ sel_of w0 (b_hits b) n c l) S1' Hc Hb Hh).
      assert (D1 : forall y, is_hit w0 y ->
         (exists l, sel_of w0 (b_hits b) n c l /\ shares_weight g w0 y l) \/
         ~ (exists l, sel_of w0 (b_hits b) n c l /\ shares_weight g w0 y l)).
      { intros y Hy. apply sel_dec; auto. }
      destruct (cut extra cmp no_scale w1 b d g) as [w2 ok2].
      destruct IH as (-> & S2 & R2).
      { intros m c' H. apply (Hn m c'). right. auto. }
      { destruct R as (R1 & R2 & R3 & R4). destruct Q as (Q1 & Q2 & Q3 & Q4). repeat split.
        - intros y Hy (l & [Hl|Hl] & Hs).
          + destruct (D1 y Hy) as [(l2 & L1 & L2)|L].
            * apply Q1; [apply S, Hy|]. exists l2. split; [apply Hsel, L1 | apply Hshare, L2].
            * rewrite Q2; [apply R1; eauto | apply S, Hy |].
              intros (l2 & L1 & L2). apply L. exists l2. split; [apply Hsel, L1 | apply Hshare, L2].
          + apply Q1; [apply S, Hy|]. exists l. split; [apply Hsel, Hl | apply Hshare, Hs].
        - intros y Hy Hno m. rewrite Q2; [apply R2; auto | apply S, Hy |].
          + intros (l2 & L1 & L2). apply Hno. eauto.
          + intros (l2 & L1 & L2). apply Hno. exists l2. split; [right; apply Hsel, L1 | apply Hshare, L2].
        - intros y Hy. rewrite Q3 by (apply S, Hy). auto.
        - intros y m Hm1 Hm2. rewrite Q4 by auto. auto. }
      { intros y Hy. destruct (D y Hy) as [(l & L1 & L2)|L]; [left; eauto|].
        destruct (D1 y Hy) as [(l & L1 & L2)|L']; [left; eauto|].
        right. intros (l & [L1|L1] & L2); [apply L | apply L']; eauto. }
      split; auto. split; auto.
      destruct R2 as (R1 & R2 & R3 & R4). repeat split; auto.
      + intros y Hy (l & [Hl|(m & c' & [E|Hin] & Hl)] & Hs); apply R1; auto.
        * exists l. auto.
        * inversion E; subst. exists l. auto.
        * exists l. split; auto. right. eauto.
      + intros y Hy Hno. apply R2; auto. intros (l & [[Hl|Hl]|(m & c' & Hin & Hl)] & Hs); apply Hno; exists l.
        * auto.
        * split; auto. right. exists n, c. auto.
        * split; auto. right. exists m, c'. auto.
  Qed.

  Lemma cut_result_refl g (w : World) : cut_result g w w (fun _ => False).
  Proof. repeat split; auto. intros y Hy (l & [] & _). Qed.
End Cut.

(** ---- C17: split ---- *)
Section Split.
  Variable key : nat -> Z.

  Record split_inv (pre : list nat) (d : list (Z * Bunch)) : Prop := {
    si_nodup : NoDup (map fst d);
    si_hits : forall k b, In (k, b) d ->
      b_hits b = filter (fun l => Z.eqb (key l) k) pre /\ in_step b /\ b_hits b <> [];
    si_all : forall l, In l pre -> In (key l) (map fst d);
    si_perm : Permutation (flat_map (fun p => b_hits (snd p)) d) pre
  }.

  Lemma dict_append_keys d k l :
    map fst (dict_append d k l) =
    if in_dec Z.eq_dec k (map fst d) then map fst d else map fst d ++ [k].
  Proof.
    induction d as [|[k' b] d IH]; simpl; auto.
    destruct (Z.eqb_spec k' k) as [->|Hne]; simpl.
    - destruct (Z.eq_dec k k); [reflexivity|congruence].
    - rewrite IH. destruct (Z.eq_dec k' k); [congruence|].
      destruct (in_dec Z.eq_dec k (map fst d)); reflexivity.
  Qed.

  Lemma dict_append_in d k l k' b' : NoDup (map fst d) ->
    In (k', b') (dict_append d k l) ->
    (k' <> k /\ In (k', b') d) \/
    (k' = k /\ exists b, b' = append b l /\
       (In (k, b) d \/ (b = bunch_new /\ ~ In k (map fst d)))).
  Proof.
    induction d as [|[k0 b0] d IH]; simpl; intros Hn Hi.
    - destruct Hi as [E|[]]. inversion E; subst. right. split; auto.
      exists bunch_new. auto.
    - inversion Hn as [|? ? Hn1 Hn2]; subst.
      destruct (Z.eqb_spec k0 k) as [->|Hne].
      + destruct Hi as [E|Hi].
        * inversion E; subst. right. split; auto. exists b0. auto.
        * left. split; auto. intros ->. apply Hn1. apply (in_map fst) in Hi. exact Hi.
      + destruct Hi as [E|Hi].
        * inversion E; subst. auto.
        * destruct (IH Hn2 Hi) as [[H1 H2]|(H1 & b & H2 & [H3|[H3 H4]])]; auto.
          -- right. split; auto. exists b. auto.
          -- right. split; auto. exists b. split; auto. right. split; auto. intuition.
  Qed.

  Lemma dict_append_perm d k l :
    Permutation (flat_map (fun p => b_hits (snd p)) (dict_append d k l))
                (l :: flat_map (fun p => b_hits (snd p)) d).
  Proof.
    induction d as [|[k0 b0] d IH]; simpl; auto.
    destruct (Z.eqb k0 k); simpl.
    - rewrite <- app_assoc. simpl. symmetry. apply Permutation_middle.
    - rewrite IH. symmetry. apply Permutation_middle.
  Qed.

  Lemma split_inv_step pre d l : split_inv pre d ->
    split_inv (pre ++ [l]) (dict_append d (key l) l).
  Proof.
    intros [H1 H2 H3 H4]. constructor.
    - rewrite dict_append_keys. destruct (in_dec Z.eq_dec (key l) (map fst d)); auto.
      rewrite <- (rev_involutive (map fst d ++ [key l])), rev_app_distr.
      apply NoDup_rev. simpl. constructor.
      + rewrite <- in_rev. auto.
      + apply NoDup_rev, H1.
    - intros k b Hi. rewrite filter_app. simpl.
      destruct (dict_append_in _ _ _ _ _ H1 Hi) as [[Hne Hin]|(-> & b0 & -> & [Hin|[-> Hno]])].
      + destruct (Z.eqb_spec (key l) k); [congruence|]. rewrite app_nil_r. apply H2, Hin.
      + destruct (H2 _ _ Hin) as (Q1 & Q2 & Q3). rewrite Z.eqb_refl. simpl. repeat split.
        * rewrite Q1. reflexivity.
        * apply append_step, Q2.
        * destruct (b_hits b0); discriminate.
      + rewrite Z.eqb_refl. simpl. repeat split; [|discriminate].
        assert (E : filter (fun x => Z.eqb (key x) (key l)) pre = []).
        { clear -Hno H3. induction pre as [|x pre IH]; simpl; auto.
          destruct (Z.eqb_spec (key x) (key l)) as [E|E].
          - exfalso. apply Hno. rewrite <- E. apply H3. left; auto.
          - apply IH. intros y Hy. apply H3. right; auto. }
        rewrite E. reflexivity.
    - intros x Hx. rewrite dict_append_keys. apply in_app_or in Hx.
      destruct (in_dec Z.eq_dec (key l) (map fst d)) as [Hi|Hi].
      + destruct Hx as [Hx|[<-|[]]]; auto.
      + apply in_or_app. destruct Hx as [Hx|[<-|[]]]; [left; auto | right; left; auto].
    - rewrite dict_append_perm, H4. apply Permutation_cons_append.
  Qed.

  Lemma dict_find_in d k b : NoDup (map fst d) -> In (k, b) d -> dict_find d k = Some b.
  Proof.
    induction d as [|[k0 b0] d IH]; simpl; intros Hn Hi; [contradiction|].
    inversion Hn as [|? ? Hn1 Hn2]; subst. destruct Hi as [E|Hi].
    - inversion E; subst. rewrite Z.eqb_refl. reflexivity.
    - destruct (Z.eqb_spec k0 k); [|auto]. subst. exfalso. apply Hn1.
      apply (in_map fst) in Hi. exact Hi.
  Qed.
End Split.

Lemma split_result N (extra : World N -> list nat -> string -> nat -> option (PyVal N))
    (int_of : PyVal N -> Z) (w : World N) b name (val : nat -> PyVal N) :
  (forall l, In l (b_hits b) -> get_hit_variable extra w (b_hits b) name l = Some (val l)) ->
  exists d, split extra int_of w b name = Some d /\
            split_inv (fun l => int_of (val l)) (b_hits b) d.
Proof.
  intros Hv. unfold split.
  assert (G : forall hs pre d, (forall l, In l hs -> In l (b_hits b)) ->
    split_inv (fun l => int_of (val l)) pre d ->
    exists d', split_loop N extra int_of w name d hs (b_hits b) = Some d' /\
               split_inv (fun l => int_of (val l)) (pre ++ hs) d').
  { induction hs as [|l hs IH]; simpl; intros pre d Hi Hd.
    - exists d. rewrite app_nil_r. auto.
    - rewrite Hv by auto.
      destruct (IH (pre ++ [l]) (dict_append d (int_of (val l)) l)) as (d' & H1 & H2); auto.
      + apply (split_inv_step (fun l => int_of (val l))), Hd.
      + exists d'. rewrite <- app_assoc in H2. auto. }
  destruct (G (b_hits b) [] []) as (d & H1 & H2); auto.
  - constructor; simpl; try constructor; try contradiction.
  - exists d. auto.
Qed.

Lemma Zltb_weak : weak_order Z.ltb.
Proof.
  constructor.
  - apply Z.ltb_irrefl.
  - intros x y. rewrite Z.ltb_lt, Z.ltb_ge. lia.
  - intros x y z. rewrite !Z.ltb_ge. lia.
Qed.

Lemma sorted_keys_strict ks : NoDup ks -> StronglySorted Z.lt (sort Z.ltb ks).
Proof.
  intros Hn.
  assert (Hs := sort_sorted Z.ltb Zltb_weak ks).
  assert (Hn2 : NoDup (sort Z.ltb ks)).
  { eapply Permutation_NoDup; [apply Permutation_sym, sort_perm | exact Hn]. }
  induction Hs as [|k r Hs IH Hf]; [constructor|].
  inversion Hn2; subst. constructor; auto. rewrite Forall_forall in *.
  intros x Hx. specialize (Hf x Hx). unfold le in Hf. rewrite Z.ltb_ge in Hf.
  assert (x <> k) by congruence. lia.
Qed.

Lemma bunch_list_result d : NoDup (map fst d) ->
  map Some (bunch_list d) = map (dict_find d) (sort Z.ltb (map fst d)).
Proof.
  intros Hn. unfold bunch_list.
  assert (G : forall ks, (forall k, In k ks -> In k (map fst d)) ->
    map Some (flat_map (fun k => match dict_find d k with Some b => [b] | None => [] end) ks) =
    map (dict_find d) ks).
  { induction ks as [|k ks IH]; simpl; intros Hi; auto.
    assert (Hk : In k (map fst d)) by auto.
    apply in_map_iff in Hk. destruct Hk as ([k' b] & E & Hb). simpl in E. subst k'.
    rewrite (dict_find_in d k b Hn Hb). simpl. rewrite IH by auto. reflexivity. }
  apply G. intros k Hk. exact (proj1 (sort_in Z.ltb _ _) Hk).
Qed.

(** ---- C20: transmission_cut ---- *)
From Coq Require Import Reals Lra.
Section Trans.
  Notation World := (World RNum).
  Variable extra : World -> list nat -> string -> nat -> option (PyVal RNum).

  Lemma Reqb_eq x y : Reqb x y = true <-> x = y.
  Proof. unfold Reqb. destruct (Req_EM_T x y); split; congruence. Qed.
  Lemma Rltb_lt x y : Rltb x y = true <-> (x < y)%R.
  Proof. unfold Rltb. destruct (Rlt_dec x y); split; congruence. Qed.
  Lemma Rltb_ge x y : Rltb x y = false <-> (y <= x)%R.
  Proof. unfold Rltb. destruct (Rlt_dec x y); split; intros; try congruence; lra. Qed.

  Definition rlex := lex_ltb Reqb Rltb.

  Lemma rlex_weak : weak_order rlex.
  Proof.
    apply lex_weak_order.
    - apply Reqb_eq.
    - intros x. apply Rltb_ge. lra.
    - intros x y. rewrite Rltb_lt, Rltb_ge. lra.
    - intros x y z. rewrite !Rltb_lt. lra.
    - intros x y. rewrite !Rltb_ge. lra.
  Qed.
  Lemma rlex_total a b : rlex a b = false -> rlex b a = false -> a = b.
  Proof.
    apply lex_total.
    - apply Reqb_eq.
    - intros x. apply Rltb_ge. lra.
    - intros x y. rewrite !Rltb_ge. intros; lra.
  Qed.

  Lemma nabs_Rabs (x : R) : @nabs RNum x = Rabs x.
  Proof.
    unfold nabs. simpl. unfold Rltb. destruct (Rlt_dec x 0).
    - rewrite Rabs_left by auto. lra.
    - rewrite Rabs_right by lra. reflexivity.
  Qed.

  Lemma fold_sum (l : list R) a : fold_left Rplus l a = (a + fold_right Rplus 0 l)%R.
  Proof. revert a; induction l; simpl; intros; [lra|]. rewrite IHl. lra. Qed.

  Lemma distance_l1 (a b : list R) : @distance RNum a b = l1_dist a b.
  Proof.
    unfold distance. change (@nadd RNum) with Rplus. change (@n0 RNum) with 0%R.
    rewrite fold_sum, Rplus_0_l. revert b; induction a as [|x a IH]; intros [|y b]; simpl; auto.
    rewrite IH. f_equal. apply nabs_Rabs.
  Qed.

  Lemma l1_refl a : l1_dist a a = 0%R.
  Proof. induction a as [|x a IH]; simpl; auto. rewrite IH, Rminus_diag_eq, Rabs_R0; auto. lra. Qed.

  Lemma l1_nonneg a b : (0 <= l1_dist a b)%R.
  Proof.
    revert b; induction a as [|x a IH]; intros [|y b]; simpl; try lra.
    pose proof (Rabs_pos (x - y)). specialize (IH b). lra.
  Qed.

  Lemma l1_int a b : List.length a = List.length b ->
    (l1_dist (map IZR a) (map IZR b) < 1)%R -> a = b.
  Proof.
    revert b; induction a as [|x a IH]; intros [|y b]; simpl; intros Hl Hd; auto; try discriminate.
    pose proof (Rabs_pos (IZR x - IZR y)). pose proof (l1_nonneg (map IZR a) (map IZR b)).
    f_equal.
    - rewrite <- minus_IZR, <- abs_IZR in *. assert (Hlt : (IZR (Z.abs (x - y)) < 1)%R) by lra.
      apply lt_IZR in Hlt. lia.
    - apply IH; [lia|lra].
  Qed.

  Definition foundb (tol : R) (entries : list (list R)) (v : list R) : bool :=
    let i := bisect_left rlex entries v in
    (@close RNum tol entries i v || @close RNum tol entries (S i) v)%bool.

  Lemma found_near tol entries v : foundb tol entries v = true ->
    exists e, In e entries /\ (l1_dist e v < tol)%R.
  Proof.
    unfold foundb. intros H. apply orb_true_iff in H.
    assert (G : forall i, @close RNum tol entries i v = true ->
                exists e, In e entries /\ (l1_dist e v < tol)%R).
    { intros i. unfold close. change (list (Num.num RNum)) with (list R).
      destruct (nth_error entries i) as [e|] eqn:E; [|discriminate].
      rewrite distance_l1. intros Hd. apply Rltb_lt in Hd. exists e. split; auto.
      eapply nth_error_In; eauto. }
    destruct H; eauto.
  Qed.

  Lemma found_equal tol entries v : (0 < tol)%R -> StronglySorted (le rlex) entries ->
    In v entries -> foundb tol entries v = true.
  Proof.
    intros Ht Hs Hi. unfold foundb. apply orb_true_iff. left.
    destruct (bisect_left_spec rlex rlex_weak entries v Hs) as (Q1 & Q2 & Q3).
    set (i := bisect_left rlex entries v) in *.
    apply In_nth_error in Hi. destruct Hi as [j Hj].
    assert (Hij : i <= j).
    { destruct (Nat.le_gt_cases i j); auto. specialize (Q2 j v H Hj).
      rewrite (wo_irr _ rlex_weak) in Q2. discriminate. }
    destruct (nth_error entries i) as [e|] eqn:Ee.
    2:{ apply nth_error_None in Ee. assert (j < List.length entries) by (apply nth_error_Some; congruence). lia. }
    assert (e = v).
    { destruct (sorted_nth rlex entries Hs i j e v Hij Ee Hj) as [->|Hle]; [congruence|].
      apply rlex_total; [apply (Q3 i); auto | exact Hle]. }
    subst e. unfold close. change (list (Num.num RNum)) with (list R). rewrite Ee, distance_l1, l1_refl. apply Rltb_lt, Ht.
  Qed.

  (** Values of the test variables. *)
  Lemma plain_value (w : World) l n : is_hit w l -> stored n -> exists v, hit_get w l n = Some v.
  Proof.
    unfold is_hit, hit_get. destruct (w_hits w l) as [h|]; [|congruence]. intros _ Hs.
    unfold core_get. destruct (stored_get n Hs) as [(x & G1 & _)|(i & G1 & G2 & _)];
            rewrite G1; [|rewrite G2]; eauto.
  Qed.

  Lemma num_real (v : PyVal RNum) : num_of v = real_of v.
  Proof. destruct v; reflexivity. Qed.

  Lemma test_values_eq (w : World) hits vars l : is_hit w l -> (forall n, In n vars -> stored n) ->
    test_values extra w hits vars l = Some (reals_of w vars l).
  Proof.
    intros Hl Hv. unfold test_values, reals_of.
    rewrite (all_some_map _ (fun n => match hit_get w l n with Some v => v | None => POther end)).
    - simpl. f_equal. rewrite map_map. apply map_ext_in. intros n Hn.
      destruct (plain_value w l n Hl (Hv n Hn)) as [v Hg]. rewrite Hg. apply num_real.
    - intros n Hn. unfold get_hit_variable.
      destruct (plain_value w l n Hl (Hv n Hn)) as [v Hg]. rewrite Hg. reflexivity.
  Qed.

  Definition rewrite_own (g : bool) (w : World) (l : nat) : World :=
    match hit_get w l (weight_name g) with
    | Some v => fst (hit_set w l (weight_name g) v)
    | None => w
    end.

  Lemma weight_value (w : World) l g : is_hit w l -> exists x : R, hit_get w l (weight_name g) = Some (@PFloat RNum x).
  Proof.
    unfold is_hit, hit_get. destruct (w_hits w l); [|congruence]. intros _.
    destruct g; eexists; reflexivity.
  Qed.

  Lemma rewrite_own_ok g w0 : idle_ok RNum (rewrite_own g) w0.
  Proof.
    intros w l S Hl. unfold rewrite_own.
    destruct (weight_value w l g (proj2 (sim_hit _ _ _ S l) Hl)) as [x Hx]. rewrite Hx.
    split; [apply similar_set, S|]. intros y n Hy.
    destruct (affected_dec RNum g w0 y l Hy Hl) as [Ha|Ha].
    2:{ eapply weight_set_other; eauto. }
    assert (Hwt : hit_get (fst (hit_set w l (weight_name g) (@PFloat RNum x))) y (weight_name g) =
                  hit_get w y (weight_name g)).
    { rewrite (weight_set_same RNum w0 w g l x y S Hl Hy Ha). rewrite <- Hx.
      destruct g; simpl in *.
      - apply gw_shared; try (apply S; auto). rewrite !(similar_track _ _ _ _ S). auto.
      - subst; auto. }
    pose proof (other_weight_set RNum g w l x y) as Hwo.
    apply reads_determined.
    - apply is_hit_after. apply S, Hy.
    - apply S, Hy.
    - intros m Hm. destruct (string_dec m "local_weight") as [->|Hne].
      + destruct g; [exact Hwo | exact Hwt].
      + destruct g; [apply global_set_stored | apply local_set_stored]; auto.
    - destruct g; [exact Hwt | exact Hwo].
  Qed.

  Definition trans_dec (vars : list string) (tol : R) (entries : list (list R)) (l : nat) (w : World) : bool :=
    negb (foundb tol entries (reals_of w vars l)).

  Lemma transmission_gloop g w0 vars (tol : R) entries all :
    (forall n, In n vars -> stored n) ->
    forall hs w, similar RNum w0 w -> (forall l, In l hs -> is_hit w0 l) ->
    transmission_loop extra w all hs vars entries tol (weight_name g) =
    (gloop RNum (rewrite_own g) g w (map (fun l => (l, trans_dec vars tol entries l)) hs), true).
  Proof.
    intros Hv. induction hs as [|l hs IH]; intros w S Hh; cbn [transmission_loop map gloop]; auto.
    assert (Hl : is_hit w l) by (apply S, Hh; left; reflexivity).
    rewrite test_values_eq by auto. cbv zeta.
    match goal with |- context [(?a || ?b)%bool] =>
      change (a || b)%bool with (foundb tol entries (reals_of w vars l)) end.
    unfold trans_dec at 1. destruct (foundb tol entries (reals_of w vars l)); cbn [negb].
    - destruct (weight_value w l g Hl) as [x Hx].
      replace (rewrite_own g w l) with (fst (hit_set w l (weight_name g) (@PFloat RNum x)))
        by (unfold rewrite_own; rewrite Hx; reflexivity).
      rewrite Hx.
      pose proof (hit_set_ok RNum w l g x Hl) as Hok.
      pose proof (similar_set RNum w0 w l g x S) as S1.
      destruct (hit_set w l (weight_name g) (@PFloat RNum x)) as [w1 ok]. cbn [fst snd] in *. subst ok.
      apply IH; auto. intros; apply Hh; right; auto.
    - rewrite hit_set_int_weight. change (@nofZ RNum 0) with (@n0 RNum).
      pose proof (hit_set_ok RNum w l g (@n0 RNum) Hl) as Hok.
      pose proof (similar_set RNum w0 w l g (@n0 RNum) S) as S1.
      destruct (hit_set w l (weight_name g) (PFloat n0)) as [w1 ok]. cbn [fst snd] in *. subst ok.
      apply IH; auto. intros; apply Hh; right; auto.
  Qed.

  Lemma reals_similar w0 w vars l : similar RNum w0 w ->
    (forall n, In n vars -> stored n /\ n <> "local_weight") -> reals_of w vars l = reals_of w0 vars l.
  Proof.
    intros S Hv. apply map_ext_in. intros n Hn. destruct (Hv n Hn).
    rewrite (sim_stored _ _ _ S); auto.
  Qed.

  (** The lost hits: those for which no test hit is found. *)
  Lemma transmission_result (w : World) b test vars (tol : R) g :
    wf RNum w -> (forall l, In l (b_hits b) -> is_hit w l) ->
    (forall l, In l (b_hits test) -> is_hit w l) ->
    (forall n, In n vars -> stored n /\ n <> "local_weight") ->
    (0 < tol)%R ->
    let (w', ok) := transmission_cut extra w b test vars tol g in
    exists lost : nat -> Prop,
    ok = true /\ cut_result RNum g w w' lost /\ similar RNum w w' /\
    (forall l, lost l -> In l (b_hits b) /\
       ~ exists t, In t (b_hits test) /\ reals_of w vars t = reals_of w vars l) /\
    (forall l, In l (b_hits b) ->
       (~ exists t, In t (b_hits test) /\ (l1_dist (reals_of w vars t) (reals_of w vars l) < tol)%R) ->
       lost l) /\
    (forall l, lost l \/ ~ lost l).
  Proof.
    intros Hw Hb Ht Hv Htol. unfold transmission_cut.
    assert (Hvs : forall n, In n vars -> stored n) by (intros n Hn; apply (Hv n Hn)).
    rewrite (all_some_map _ (reals_of w vars)) by (intros l Hl; apply test_values_eq; auto).
    set (entries := sort (@lex_ltb RNum neqb nltb) (map (reals_of w vars) (b_hits test))).
    assert (Hs : StronglySorted (le rlex) entries) by (apply sort_sorted, rlex_weak).
    assert (Hin : forall e, In e entries <-> exists t, In t (b_hits test) /\ reals_of w vars t = e).
    { intros e. unfold entries. rewrite sort_in, in_map_iff. split; intros (t & H1 & H2); eauto. }
    pose proof (similar_refl RNum w Hw) as S.
    rewrite (transmission_gloop g w vars tol entries (b_hits b) Hvs (b_hits b) w S Hb).
    exists (fun l => In l (b_hits b) /\ foundb tol entries (reals_of w vars l) = false).
    split; auto.
    set (ps := map _ (b_hits b)).
    assert (Hps : forall l f, In (l, f) ps <-> In l (b_hits b) /\ f = trans_dec vars tol entries l).
    { intros l f. unfold ps. rewrite in_map_iff. split.
      - intros (l' & E1 & Hl). inversion E1; subst. auto.
      - intros [Hl ->]. exists l. auto. }
    assert (H1 : forall l f, In (l, f) ps -> is_hit w l).
    { intros l f Hi. apply Hps in Hi. apply Hb, Hi. }
    assert (H3 : forall l f, In (l, f) ps -> forall w1 w2, similar RNum w w1 -> similar RNum w w2 ->
       (forall n, hit_get w1 l n = hit_get w2 l n) -> f w1 = f w2).
    { intros l f Hi w1 w2 _ _ Hr. apply Hps in Hi. destruct Hi as [_ ->].
      unfold trans_dec. f_equal. f_equal. apply map_ext. intros n. rewrite Hr. reflexivity. }
    pose proof (rewrite_own_ok g w) as Hi.
    pose proof (gloop_similar RNum _ g w ps Hi H1 w S) as S'.
    split; [unfold cut_result; split; [|split; [|split]] | split; [exact S'|split; [|split]]].
    - intros y Hy (l & [Hl1 Hl2] & Hsh).
      destruct (gloop_zero RNum _ g w ps Hi H1 H3 w S y Hy) as [Q _]. apply Q.
      exists l, (trans_dec vars tol entries l). split; [apply Hps; auto|]. split; auto.
      unfold trans_dec. rewrite Hl2. reflexivity.
    - intros y Hy Hn. destruct (gloop_zero RNum _ g w ps Hi H1 H3 w S y Hy) as [_ Q]. apply Q.
      intros l f Hf Haf. apply Hps in Hf. destruct Hf as [Hl ->]. unfold trans_dec.
      destruct (foundb tol entries (reals_of w vars l)) eqn:E; auto. exfalso. apply Hn.
      exists l. auto.
    - intros y Hy. apply (gloop_other_weight RNum _ g w ps Hi H1 w y S Hy).
    - intros y n Hst Hn. apply (sim_stored _ _ _ S'); auto.
    - intros l [L1 L2]. split; auto. intros (t & T1 & T2).
      rewrite (found_equal tol entries _ Htol Hs) in L2; [discriminate|].
      apply Hin. eauto.
    - intros l L1 L2. split; auto.
      destruct (foundb tol entries (reals_of w vars l)) eqn:E; auto. exfalso.
      destruct (found_near tol entries _ E) as (e & E1 & E2).
      apply Hin in E1. destruct E1 as (t & T1 & <-). eauto.
    - intros l. destruct (in_dec Nat.eq_dec l (b_hits b)); [|right; tauto].
      destruct (foundb tol entries (reals_of w vars l)); [right | left]; intuition congruence.
  Qed.
End Trans.

Section TransInt.
  Notation World := (World RNum).
  Variable extra : World -> list nat -> string -> nat -> option (PyVal RNum).

  Definition ival (w : World) (l : nat) (n : string) : Z :=
    match hit_get w l n with Some (PInt z) => z | _ => 0%Z end.

  Lemma int_value (w : World) l n : is_hit w l -> In n stored_ints ->
    hit_get w l n = Some (PInt (ival w l n)).
  Proof.
    unfold is_hit, ival, hit_get. destruct (w_hits w l) as [h|]; [|congruence]. intros _ Hn.
    simpl in Hn. repeat (destruct Hn as [<-|Hn]; [reflexivity|]). contradiction.
  Qed.

  Lemma reals_int (w : World) vars l : is_hit w l -> (forall n, In n vars -> In n stored_ints) ->
    reals_of w vars l = map IZR (map (ival w l) vars).
  Proof.
    intros Hl Hv. unfold reals_of. rewrite map_map. apply map_ext_in. intros n Hn.
    rewrite (int_value w l n Hl (Hv n Hn)). reflexivity.
  Qed.

  Lemma same_values_iff (w : World) vars l t : is_hit w l -> is_hit w t ->
    (forall n, In n vars -> In n stored_ints) ->
    (same_values w vars t l <-> map (ival w t) vars = map (ival w l) vars).
  Proof.
    intros Hl Ht Hv. unfold same_values. split.
    - intros H. apply map_ext_in. intros n Hn. specialize (H n Hn). unfold ival. rewrite H. reflexivity.
    - intros H n Hn. rewrite (int_value w t n Ht (Hv n Hn)), (int_value w l n Hl (Hv n Hn)).
      f_equal. f_equal.
      clear Hv. induction vars as [|m vars IH]; simpl in *; [contradiction|]. inversion H.
      destruct Hn as [<-|Hn]; auto.
  Qed.

  Lemma ints_stored vars : (forall n, In n vars -> In n stored_ints) ->
    forall n, In n vars -> stored n /\ n <> "local_weight".
  Proof.
    intros H n Hn. split; [right; auto|]. intros ->. specialize (H _ Hn). simpl in H.
    repeat (destruct H as [H|H]; [discriminate|]). contradiction.
  Qed.

  Lemma transmitted_dec (w : World) test vars l : is_hit w l ->
    (forall t, In t test -> is_hit w t) -> (forall n, In n vars -> In n stored_ints) ->
    transmitted w test vars l \/ ~ transmitted w test vars l.
  Proof.
    intros Hl Ht Hv. induction test as [|t test IH].
    - right. intros (t & [] & _).
    - destruct IH as [(t' & T1 & T2)|N]; [intros; apply Ht; right; auto| |].
      + left. exists t'. split; [right|]; auto.
      + assert (Hit : is_hit w t) by (apply Ht; left; auto).
        destruct (list_eq_dec Z.eq_dec (map (ival w t) vars) (map (ival w l) vars)) as [E|E].
        * left. exists t. split; [left; auto|]. apply same_values_iff; auto.
        * right. intros (t' & [<-|T1] & T2).
          -- apply E. apply same_values_iff; auto.
          -- apply N. exists t'. auto.
  Qed.

  Definition lost_in (w : World) (b test : Bunch) (vars : list string) (l : nat) : Prop :=
    In l (b_hits b) /\ ~ transmitted w (b_hits test) vars l.

  Lemma transmission_int (w : World) b test vars (tol : R) g :
    wf RNum w -> (forall l, In l (b_hits b) -> is_hit w l) ->
    (forall l, In l (b_hits test) -> is_hit w l) ->
    (forall n, In n vars -> In n stored_ints) ->
    (0 < tol <= 1)%R ->
    let (w', ok) := transmission_cut extra w b test vars tol g in
    ok = true /\ similar RNum w w' /\ cut_result RNum g w w' (lost_in w b test vars).
  Proof.
    intros Hw Hb Ht Hv Htol.
    pose proof (transmission_result extra w b test vars tol g Hw Hb Ht (ints_stored vars Hv) (proj1 Htol)) as Q.
    destruct (transmission_cut extra w b test vars tol g) as [w' ok].
    destruct Q as (lost & Q1 & Q2 & Q3 & Q4 & Q5 & Q6).
    assert (E : forall l, In l (b_hits b) -> (transmitted w (b_hits test) vars l <->
       exists t, In t (b_hits test) /\ reals_of w vars t = reals_of w vars l)).
    { intros l Hl. split; intros (t & T1 & T2); exists t; (split; [exact T1|]).
      - rewrite !reals_int by auto. f_equal. apply same_values_iff; auto.
      - rewrite !reals_int in T2 by auto. apply same_values_iff; auto.
        clear -T2. revert T2. generalize (map (ival w l) vars). generalize (map (ival w t) vars).
        induction l0 as [|a l0 IH]; intros [|a' l']; simpl; intros T2; inversion T2; auto.
        f_equal; auto. apply eq_IZR. auto. }
    assert (E2 : forall l, In l (b_hits b) ->
       (exists t, In t (b_hits test) /\ (l1_dist (reals_of w vars t) (reals_of w vars l) < tol)%R) ->
       transmitted w (b_hits test) vars l).
    { intros l Hl (t & T1 & T2). exists t. split; auto. apply same_values_iff; auto.
      apply l1_int; [rewrite !map_length; reflexivity|]. rewrite <- !reals_int by auto. lra. }
    assert (L : forall l, lost l <-> lost_in w b test vars l).
    { intros l. unfold lost_in. split.
      - intros H. destruct (Q4 l H) as [H1 H2]. split; auto. rewrite E; auto.
      - intros [H1 H2]. apply Q5; auto. }
    split; auto. split; auto.
    destruct Q2 as (R1 & R2 & R3 & R4). unfold cut_result. repeat split; auto.
    - intros y Hy (l & Hl & Hs). apply R1; auto. exists l. rewrite L. auto.
    - intros y Hy Hn. apply R2; auto. intros (l & Hl & Hs). apply Hn. exists l. rewrite <- L. auto.
  Qed.

  Lemma lost_dec g (w : World) b test vars y : is_hit w y ->
    (forall l, In l (b_hits b) -> is_hit w l) ->
    (forall l, In l (b_hits test) -> is_hit w l) ->
    (forall n, In n vars -> In n stored_ints) ->
    (exists l, lost_in w b test vars l /\ shares_weight g w y l) \/
    ~ (exists l, lost_in w b test vars l /\ shares_weight g w y l).
  Proof.
    intros Hy Hb Ht Hv. unfold lost_in.
    assert (G : forall hs, (forall l, In l hs -> is_hit w l) ->
      (exists l, (In l hs /\ ~ transmitted w (b_hits test) vars l) /\ shares_weight g w y l) \/
      ~ (exists l, (In l hs /\ ~ transmitted w (b_hits test) vars l) /\ shares_weight g w y l)).
    { induction hs as [|a hs IH]; intros Hi.
      - right. intros (l & [[] _] & _).
      - destruct IH as [(l & [L1 L2] & L3)|L]; [intros; apply Hi; right; auto| |].
        + left. exists l. simpl; auto.
        + assert (Ha : is_hit w a) by (apply Hi; left; auto).
          destruct (transmitted_dec w (b_hits test) vars a Ha Ht Hv) as [A|A].
          * right. intros (l & [[<-|L1] L2] & L3); [tauto|]. apply L. eauto.
          * destruct (affected_dec RNum g w y a Hy Ha) as [B|B].
            -- left. exists a. simpl; auto.
            -- right. intros (l & [[<-|L1] L2] & L3); [tauto|]. apply L. eauto. }
    apply G, Hb.
  Qed.
End TransInt.

Lemma set_all_cur {N} d : forall (w : World N) l, w_cur (fst (set_all w l d)) = w_cur w.
Proof.
  induction d as [|[k v] d IH]; intros w l; simpl; auto.
  pose proof (cur_ctx_after N w l k v) as H. destruct (hit_set w l k v) as [w' ok]. simpl in H.
  destruct ok; simpl; [rewrite IH|]; auto.
Qed.

Lemma never_switches_cur {N} (p : list (WOp N)) : never_switches p -> w_cur (wrun p) = 0.
Proof.
  intros H. unfold wrun.
  assert (G : forall w : World N, w_cur w = 0 -> w_cur (fold_left (@wexec N) p w) = 0).
  { induction H as [|op p Hop Hp IH]; simpl; intros w Hw; auto. apply IH.
    destruct op; simpl; auto.
    - rewrite cur_ctx_after; auto.
    - destruct (w_hits w l); auto. unfold deepcopy, new_from_dict. simpl.
      match goal with |- context [set_all ?a ?b ?c] =>
        pose proof (set_all_cur c a b); destruct (set_all a b c) end. simpl in *; congruence.
    - destruct (w_hits w l); auto. unfold pickle_roundtrip. simpl.
      match goal with |- context [set_all ?a ?b ?c] =>
        pose proof (set_all_cur c a b); destruct (set_all a b c) end. simpl in *; congruence.
    - unfold new_from_dict. simpl.
      match goal with |- context [set_all ?a ?b ?c] =>
        pose proof (set_all_cur c a b); destruct (set_all a b c) end. simpl in *; congruence.
    - destruct (exec (w_store w) s); auto.
    - contradiction. }
  apply G. reflexivity.
Qed.

Lemma stored_readable N (w : World N) l n : is_hit w l -> stored n -> exists v, hit_get w l n = Some v.
Proof.
  unfold is_hit, hit_get. destruct (w_hits w l) as [h|]; [|congruence]. intros _ Hst.
  unfold core_get. destruct (stored_get n Hst) as [(x & G1 & _)|(i & G1 & G2 & _)];
    rewrite G1; [|rewrite G2]; eauto.
Qed.
