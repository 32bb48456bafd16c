(** Theorems about clearing weights and selecting hits: C65. *)
From Coq Require Import Reals ZArith Arith Bool String Lra List.
From Verif Require Import Num WeightModel HitcoreModel HitcoreSpec HitcoreProofs BunchModel BunchSpec BunchProofs
  MomentModel MomentSpec MomentProofs.
Import ListNotations.
Open Scope string_scope.

Local Ltac hit := eapply (is_hit_of_get _ _ _ "spill"); vm_compute; reflexivity.

(** One step: hit l gets local weight 1. *)
Lemma clear_one {N : NumOps} (w : World N) l : wf _ w -> is_hit w l ->
  let w' := fst (hit_set w l "local_weight" (PInt 1)) in
  wf _ w' /\ hit_get w' l "local_weight" = Some (PFloat (nofZ 1)) /\ cur_ctx w' = cur_ctx w /\
  (forall y, is_hit w y -> is_hit w' y) /\
  (forall y, y <> l -> forall n, hit_get w' y n = hit_get w y n) /\
  (forall n, n <> "local_weight" -> n <> "weight" -> hit_get w' l n = hit_get w l n).
Proof.
  intros W H w'.
  assert (G : w' = fst (hit_set w l "local_weight" (PInt 1))) by reflexivity.
  unfold hit_set in G. unfold is_hit in H. destruct (w_hits w l) as [h|] eqn:E; [|congruence].
  assert (S : core_set (cur_ctx w) h "local_weight" (PInt 1) =
              (hit_set_dbl h Vlocal_weight (nofZ 1), cur_ctx w, true)) by reflexivity.
  rewrite S in G. cbn [fst] in G. clear S.
  assert (C : cur_ctx w' = cur_ctx w).
  { rewrite G. rewrite cur_ctx_with_hit. apply cur_ctx_with_cur. }
  split; [apply wf_hit_set; auto|].
  split. { rewrite G. unfold hit_get. cbn. unfold fupd. rewrite Nat.eqb_refl. reflexivity. }
  split; auto.
  split. { intros y Hy. rewrite G. unfold is_hit in *. cbn. unfold fupd. destruct (Nat.eqb l y); congruence. }
  split.
  - intros y D n. unfold hit_get. rewrite C. rewrite G. cbn. unfold fupd.
    destruct (Nat.eqb_spec l y); [congruence|]. reflexivity.
  - intros n N1 N2. unfold hit_get at 1. rewrite C. rewrite G. cbn [w_hits fst]. cbn.
    unfold fupd. rewrite Nat.eqb_refl. unfold hit_get. rewrite E.
    unfold core_get. destruct (assoc get_dbl_map n) as [k|] eqn:A.
    + assert (K : k <> DStored Vlocal_weight /\ k <> DWeight).
      { clear - A N1 N2. cbn [assoc get_dbl_map] in A.
        repeat match type of A with
        | (if String.eqb ?a ?b then _ else _) = _ => destruct (String.eqb_spec a b); [inversion A; subst; split; congruence|]
        end. discriminate. }
      destruct K as [K1 K2]. destruct k as [v| |]; try congruence.
      * cbn [read_dbl]. unfold hit_set_dbl. cbn [h_dbl]. destruct (dblvar_eq_dec Vlocal_weight v); [congruence|]. reflexivity.
      * reflexivity.
    + destruct (assoc get_int_map n); reflexivity.
Qed.

(** C65.  clear_local_weights sets the local weight of every hit of the bunch to 1 and
    changes nothing else. *)
Theorem C65_clear_local_weights :
  forall (N : NumOps) (p : list (WOp N)) (b : Bunch),
    (forall l, In l (b_hits b) -> is_hit (wrun p) l) ->
    let w' := clear_local_weights (wrun p) b in
    (forall l, In l (b_hits b) -> hit_get w' l "local_weight" = Some (PFloat (nofZ 1))) /\
    (forall l n, n <> "local_weight" -> n <> "weight" -> hit_get w' l n = hit_get (wrun p) l n) /\
    (forall l n, ~ In l (b_hits b) -> hit_get w' l n = hit_get (wrun p) l n).
Proof.
  intros N p b. unfold clear_local_weights.
  assert (G : forall hs (w : World N), wf _ w -> (forall l, In l hs -> is_hit w l) ->
    let w' := fold_left (fun (w : World N) l => fst (hit_set w l "local_weight" (PInt 1))) hs w in
    (forall l, In l hs -> hit_get w' l "local_weight" = Some (PFloat (nofZ 1))) /\
    (forall l n, n <> "local_weight" -> n <> "weight" -> hit_get w' l n = hit_get w l n) /\
    (forall l n, ~ In l hs -> hit_get w' l n = hit_get w l n)).
  { induction hs as [|x hs IH]; intros w W H; cbn [fold_left]; [split; [intros l []|auto]|].
    destruct (clear_one w x W (H x (or_introl eq_refl))) as (W1 & A & C & I & O & F).
    destruct (IH _ W1 (fun l Hl => I l (H l (or_intror Hl)))) as (I1 & I2 & I3).
    split; [|split].
    - intros l [<- | Hl]; auto.
      destruct (in_dec Nat.eq_dec x hs); auto. rewrite I3 by auto. exact A.
    - intros l n N1 N2. rewrite I2 by auto. destruct (Nat.eq_dec l x) as [-> | D]; auto.
    - intros l n Hl. rewrite I3 by (intros Hl'; apply Hl; right; auto).
      apply O. intros ->. apply Hl. left. auto. }
  intros H. apply (G (b_hits b) (wrun p)); auto. apply wf_run.
Qed.
Print Assumptions C65_clear_local_weights.

(** C65.  After clear_weights the weight of a bunch is the number of its hits times the
    default of the current weight context; no stored variable but the local weight changes. *)
Theorem C65_clear_weights :
  forall (p : list (WOp RNum)) (b : Bunch),
    (forall l, In l (b_hits b) -> is_hit (wrun p) l) ->
    let w' := bunch_clear_weights (wrun p) b in
    (forall l, In l (b_hits b) -> hit_get w' l "local_weight" = Some (PFloat (1%R : RNum))) /\
    (forall l, In l (b_hits b) ->
       hit_get w' l "global_weight" = Some (PFloat (get_default_weight (cur_ctx (wrun p))))) /\
    (forall l n, stored n -> n <> "local_weight" -> hit_get w' l n = hit_get (wrun p) l n) /\
    bunch_weight w' b = (INR (length (b_hits b)) * get_default_weight (cur_ctx (wrun p)))%R.
Proof.
  intros p b H.
  destruct (C65_clear_local_weights RNum p b H) as (A & B & _).
  assert (E : forall hs (w : World RNum), wf _ w -> (forall l, In l hs -> is_hit w l) ->
    let w' := fold_left (fun w l => fst (@hit_set RNum w l "local_weight" (PInt 1))) hs w in
    wf _ w' /\ cur_ctx w' = cur_ctx w /\ (forall l, is_hit w l -> is_hit w' l)).
  { induction hs as [|x hs IH]; intros w W Hh; cbn [fold_left]; auto.
    destruct (clear_one w x W (Hh x (or_introl eq_refl))) as (W1 & _ & C & I & _ & _).
    destruct (IH _ W1 (fun l Hl => I l (Hh l (or_intror Hl)))) as (I1 & I2 & I3).
    split; auto. split; [congruence|auto]. }
  destruct (E (b_hits b) (wrun p) (wf_run _ p) H) as (W1 & C1 & I1). clear E.
  unfold bunch_clear_weights. fold (clear_local_weights (wrun p) b) in *.
  set (w1 := clear_local_weights (wrun p) b) in *.
  assert (L : forall l, In l (b_hits b) -> hit_get (clear_global_weights w1) l "local_weight" = Some (PFloat (1%R : RNum))).
  { intros l Hl. rewrite clear_weights_frame by (left; simpl; tauto). rewrite A by auto. reflexivity. }
  assert (GW : forall l, In l (b_hits b) ->
     hit_get (clear_global_weights w1) l "global_weight" = Some (PFloat (get_default_weight (cur_ctx (wrun p))))).
  { intros l Hl. rewrite clear_weights_all by auto. rewrite C1. reflexivity. }
  assert (IH : forall l, In l (b_hits b) -> is_hit (clear_global_weights w1) l).
  { intros l Hl. apply (I1 l (H l Hl)). }
  split; auto. split; auto. split.
  - intros l n S D. rewrite clear_weights_frame by auto. apply B; auto.
    intros ->. destruct S as [S|S]; simpl in S; intuition discriminate.
  - rewrite bunch_weight_total by auto. unfold total_weight.
    assert (W : forall l, In l (b_hits b) -> wt (clear_global_weights w1) l = get_default_weight (cur_ctx (wrun p))).
    { intros l Hl. destruct (weight_product _ (clear_global_weights w1) l (IH l Hl)) as (lw & gw & P1 & P2 & P3).
      rewrite L in P1 by auto. rewrite GW in P2 by auto. unfold wt. rewrite P3. cbn [real_of].
      assert (E1 : lw = (1%R : RNum)) by congruence. assert (E2 : gw = get_default_weight (cur_ctx (wrun p))) by congruence.
      subst. change (1 * get_default_weight (cur_ctx (wrun p)) = get_default_weight (cur_ctx (wrun p)))%R. apply Rmult_1_l. }
    clear - W. induction (b_hits b) as [|l hs IHs]; cbn [rsum length].
    + change (INR 0) with 0%R. match goal with |- ?a = ?b => change (@eq R a b) end. ring.
    + rewrite IHs by (intros; apply W; right; auto). rewrite W by (left; auto). rewrite S_INR.
      match goal with |- ?a = ?b => change (@eq R a b) end. ring.
Qed.
Print Assumptions C65_clear_weights.

(** C65.  get_hits returns, in order, the hits whose variable compares as asked. *)
Theorem C65_get_hits :
  forall (N : NumOps) extra (cmp : PyVal N -> N -> CmpRes) (w : World N) (b : Bunch) (name : string) (c : N),
    total cmp ->
    (forall l, In l (b_hits b) -> get_hit_variable extra w (b_hits b) name l <> None) ->
    exists sel : nat -> bool,
      get_hits extra cmp w b name c = Some (filter sel (b_hits b)) /\
      forall l, In l (b_hits b) ->
        (sel l = true <-> selected (fun w n l => get_hit_variable extra w (b_hits b) n l) cmp w name c l).
Proof.
  intros N extra cmp w b name c T H. unfold get_hits, selected.
  set (sel := fun l => match get_hit_variable extra w (b_hits b) name l with
                       | Some v => match cmp v c with CBool x => x | _ => false end | None => false end).
  exists sel. split.
  - assert (G : forall hs, (forall l, In l hs -> get_hit_variable extra w (b_hits b) name l <> None) ->
       get_hits_loop extra cmp w (b_hits b) name c hs = Some (filter sel hs)); [|apply G; auto].
    induction hs as [|l hs IH]; intros Hh; auto. cbn [get_hits_loop filter]. unfold sel at 1.
    assert (Hl := Hh l (or_introl eq_refl)).
    destruct (get_hit_variable extra w (b_hits b) name l) as [v|]; [|congruence].
    rewrite IH by (intros; apply Hh; right; auto).
    destruct (T v c) as [-> | ->]; reflexivity.
  - intros l Hl. unfold sel. assert (Hv := H l Hl).
    destruct (get_hit_variable extra w (b_hits b) name l) as [v|] eqn:E; [|congruence].
    split.
    + intros S. exists v. split; auto. destruct (T v c) as [F|F]; rewrite F in S; congruence.
    + intros (v' & E' & S). assert (v' = v) by congruence. subst. rewrite S. reflexivity.
Qed.
Print Assumptions C65_get_hits.

(** C65.  If the comparison raises on a hit, or a variable is missing, get_hits raises. *)
Theorem C65_get_hits_raises :
  forall (N : NumOps) extra (cmp : PyVal N -> N -> CmpRes) (w : World N) (b : Bunch) (name : string) (c : N) l,
    In l (b_hits b) ->
    (get_hit_variable extra w (b_hits b) name l = None \/
     exists v, get_hit_variable extra w (b_hits b) name l = Some v /\ cmp v c = CRaise) ->
    get_hits extra cmp w b name c = None.
Proof.
  intros N extra cmp w b name c l I R. unfold get_hits.
  assert (G : forall hs, In l hs -> get_hits_loop extra cmp w (b_hits b) name c hs = None); [|apply G; auto].
  induction hs as [|x hs IH]; [intros []|]. intros [-> | Hl]; cbn [get_hits_loop].
  - destruct R as [-> | (v & -> & ->)]; reflexivity.
  - rewrite IH by auto. destruct (get_hit_variable extra w (b_hits b) name x) as [v|]; auto.
    destruct (py_truth (cmp v c)) as [[|]|]; auto.
Qed.
Print Assumptions C65_get_hits_raises.

Example C65_example :
  let p : list (WOp ZNum) := [WNew; WNew; WSet 0 "local_weight" (@PFloat ZNum 7%Z); WSet 0 "x" (@PFloat ZNum 5%Z);
            WSet 1 "spill" (PInt 4); WSet 1 "local_weight" (@PFloat ZNum 0%Z)] in
  let b := append (append bunch_new 0) 1 in
  (forall l, In l (b_hits b) -> is_hit (wrun p) l) /\
  bunch_weight (wrun p) b = 7%Z /\ bunch_weight (bunch_clear_weights (wrun p) b) b = 2%Z.
Proof.
  cbv zeta. split; [|split; vm_compute; reflexivity].
  intros l [<- | [<- | []]]; hit.
Qed.
