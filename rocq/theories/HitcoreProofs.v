From Coq Require Import ZArith List Bool String Lia.
From Verif Require Import Num WeightModel WeightSpec WeightProofs HitcoreModel HitcoreSpec.
Import ListNotations.
Open Scope string_scope.

Lemma fupd_same {A} (f : nat -> option A) k v : fupd f k v k = Some v.
Proof. unfold fupd. rewrite Nat.eqb_refl. reflexivity. Qed.
Lemma fupd_other {A} (f : nat -> option A) k v k' : k <> k' -> fupd f k v k' = f k'.
Proof. unfold fupd. intros H. destruct (Nat.eqb_spec k k'); congruence. Qed.

Lemma wrap32_id z : (-2147483648 <= z < 2147483648)%Z -> wrap32 z = z.
Proof. intros H. unfold wrap32. rewrite Z.mod_small by lia. lia. Qed.

Lemma wrap32_range z : (-2147483648 <= wrap32 z < 2147483648)%Z.
Proof.
  unfold wrap32. pose proof (Z.mod_pos_bound (z + 2147483648) 4294967296). lia.
Qed.

Lemma in_long_range z : (-2147483648 <= z < 2147483648)%Z -> in_long z = true.
Proof. intros H. unfold in_long. apply andb_true_intro. rewrite !Z.leb_le. lia. Qed.

Section P.
  Variable N : NumOps.
  Notation World := (World N).
  Notation Context := (Context N).
  Notation Hit := (Hit N).

  (** ---- invariant of reachable states ---- *)
  Record wf (w : World) : Prop := {
    wf_cur : exists c, st_heap (w_store w) (w_cur w) = Some c;
    wf_ok : forall l c, st_heap (w_store w) l = Some c -> ok N c;
    wf_env : forall x l, st_env (w_store w) x = Some l ->
                         exists c, st_heap (w_store w) l = Some c;
    wf_fresh : forall l, w_next w <= l -> w_hits w l = None;
    wf_ints : forall l h i, w_hits w l = Some h ->
                            (-2147483648 <= h_int h i < 2147483648)%Z
  }.

  Lemma cur_ctx_eq (w : World) c : st_heap (w_store w) (w_cur w) = Some c -> cur_ctx w = c.
  Proof. unfold cur_ctx. intros ->. reflexivity. Qed.

  Lemma wf_cur_ok (w : World) : wf w -> ok N (cur_ctx w).
  Proof.
    intros H. destruct (wf_cur _ H) as [c Hc]. rewrite (cur_ctx_eq _ _ Hc).
    eapply wf_ok; eauto.
  Qed.

  Lemma cur_ctx_with_cur (w : World) c : cur_ctx (with_cur w c) = c.
  Proof. unfold cur_ctx, with_cur; simpl. rewrite fupd_same. reflexivity. Qed.

  Lemma cur_ctx_with_hit (w : World) l h : cur_ctx (with_hit w l h) = cur_ctx w.
  Proof. reflexivity. Qed.

  Lemma wf_init : wf world_init.
  Proof.
    constructor; simpl; try discriminate; auto.
    - exists ctx_new. reflexivity.
    - intros l c. unfold fupd. destruct (Nat.eqb 0 l); [|discriminate].
      intros H. inversion H. apply new_ok.
  Qed.

  Lemma core_set_ok (c : Context) (h : Hit) n v : ok N c ->
    let '(h', c', b) := core_set c h n v in ok N c'.
  Proof.
    intros H. unfold core_set.
    destruct (assoc set_dbl_map n) as [[d| |]|].
    - destruct (as_double v); auto.
    - destruct (as_double v). apply set_ok, H.
    - exact H.
    - destruct (assoc set_int_map n); [|exact H].
      destruct (as_int v); exact H.
  Qed.

  Lemma core_set_ints (c : Context) (h : Hit) n v :
    (forall i, (-2147483648 <= h_int h i < 2147483648)%Z) ->
    let '(h', c', b) := core_set c h n v in
    forall i, (-2147483648 <= h_int h' i < 2147483648)%Z.
  Proof.
    intros H. unfold core_set.
    destruct (assoc set_dbl_map n) as [[d| |]|].
    - destruct (as_double v); auto.
    - destruct (as_double v); auto.
    - exact H.
    - destruct (assoc set_int_map n) as [j|]; [|exact H].
      destruct (as_int v) as [z b] eqn:E. intros i. simpl.
      destruct (intvar_eq_dec j i); [|apply H].
      destruct v as [x|z0|]; simpl in E.
      + inversion E; subst; lia.
      + destruct (in_long z0); inversion E; subst; [apply wrap32_range|lia].
      + inversion E; subst; lia.
  Qed.

  Lemma wf_hit_set (w : World) l n v : wf w -> wf (fst (hit_set w l n v)).
  Proof.
    intros H. unfold hit_set. destruct (w_hits w l) as [h|] eqn:Eh; [|exact H].
    pose proof (core_set_ok (cur_ctx w) h n v (wf_cur_ok w H)) as Hok.
    pose proof (core_set_ints (cur_ctx w) h n v (fun i => wf_ints _ H l h i Eh)) as Hin.
    destruct (core_set (cur_ctx w) h n v) as [[h' c'] b]. simpl.
    constructor; simpl.
    - exists c'. apply fupd_same.
    - intros l0 c0. unfold fupd. destruct (Nat.eqb (w_cur w) l0).
      + intros E; inversion E; subst; auto.
      + apply (wf_ok _ H).
    - intros x l0 E. destruct (wf_env _ H x l0 E) as [c0 Hc0].
      unfold fupd. destruct (Nat.eqb (w_cur w) l0); eauto.
    - intros l0 Hl. unfold fupd. destruct (Nat.eqb_spec l l0).
      + subst. rewrite (wf_fresh _ H _ Hl) in Eh. discriminate.
      + apply (wf_fresh _ H _ Hl).
    - intros l0 h0 i. unfold fupd. destruct (Nat.eqb_spec l l0).
      + intros E; inversion E; subst; auto.
      + apply (wf_ints _ H).
  Qed.

  Lemma wf_alloc (w : World) : wf w -> wf (fst (hit_alloc w)).
  Proof.
    intros H. constructor; simpl.
    - apply (wf_cur _ H).
    - apply (wf_ok _ H).
    - apply (wf_env _ H).
    - intros l Hl. rewrite fupd_other by lia. apply (wf_fresh _ H). lia.
    - intros l h i. unfold fupd. destruct (Nat.eqb (w_next w) l).
      + intros E; inversion E; subst; simpl. lia.
      + apply (wf_ints _ H).
  Qed.

  Lemma wf_set_all d : forall (w : World) l, wf w -> wf (fst (set_all w l d)).
  Proof.
    induction d as [|[k v] d IH]; simpl; intros w l H; auto.
    pose proof (wf_hit_set w l k v H) as H1.
    destruct (hit_set w l k v) as [w' b]; simpl in *.
    destruct b; auto.
  Qed.

  Lemma wf_new_from_dict (w : World) d : wf w -> wf (fst (fst (new_from_dict w d))).
  Proof.
    intros H. unfold new_from_dict. pose proof (wf_alloc w H) as Ha.
    destruct (hit_alloc w) as [w1 l]; simpl in *.
    pose proof (wf_set_all d w1 l Ha) as Hs.
    destruct (set_all w1 l d); simpl in *. exact Hs.
  Qed.

  Lemma pickle_is_deepcopy (w : World) l : pickle_roundtrip w l = deepcopy w l.
  Proof. reflexivity. Qed.

  Lemma wf_clear (w : World) : wf w -> wf (clear_global_weights w).
  Proof.
    intros H. constructor; simpl.
    - eexists. apply fupd_same.
    - intros l c. unfold fupd. destruct (Nat.eqb (w_cur w) l).
      + intros E; inversion E; subst. constructor.
      + apply (wf_ok _ H).
    - intros x l E. destruct (wf_env _ H x l E) as [c Hc].
      unfold fupd. destruct (Nat.eqb (w_cur w) l); eauto.
    - apply (wf_fresh _ H).
    - apply (wf_ints _ H).
  Qed.

  (** Weight context statements keep every context in order and never lose one. *)
  Definition store_ok (s : Store N) : Prop :=
    (forall l c, st_heap s l = Some c -> ok N c) /\
    (forall x l, st_env s x = Some l -> exists c, st_heap s l = Some c).

  Lemma bind_store_ok (s : Store N) x c :
    store_ok s -> ok N c ->
    store_ok (bind_new s x c) /\
    (forall l c0, st_heap s l = Some c0 -> exists c1, st_heap (bind_new s x c) l = Some c1).
  Proof.
    intros [H1 H2] Hc. split; [split|]; simpl.
    - intros l c0. unfold fupd. destruct (Nat.eqb (st_next s) l).
      + intros E; inversion E; subst; auto.
      + apply H1.
    - intros y l. unfold fupd at 1. destruct (Nat.eqb x y).
      + intros E; inversion E; subst. eexists. apply fupd_same.
      + intros E. destruct (H2 _ _ E) as [c0 Hc0]. unfold fupd.
        destruct (Nat.eqb (st_next s) l); eauto.
    - intros l c0 E. unfold fupd. destruct (Nat.eqb (st_next s) l); eauto.
  Qed.

  Lemma mutate_store_ok (s : Store N) x f s' :
    store_ok s -> (forall c, ok N c -> ok N (f c)) -> mutate s x f = Some s' ->
    store_ok s' /\
    (forall l c0, st_heap s l = Some c0 -> exists c1, st_heap s' l = Some c1).
  Proof.
    intros [H1 H2] Hf. unfold mutate.
    destruct (st_env s x) as [l|] eqn:E; [|discriminate].
    destruct (st_heap s l) as [c|] eqn:E2; [|discriminate].
    intros E3; inversion E3; subst; clear E3. split; [split|]; simpl.
    - intros l0 c0. unfold fupd. destruct (Nat.eqb l l0).
      + intros E3; inversion E3; subst; eauto.
      + apply H1.
    - intros y l0 Ey. destruct (H2 _ _ Ey) as [c0 Hc0]. unfold fupd.
      destruct (Nat.eqb l l0); eauto.
    - intros l0 c0 Hc0. unfold fupd. destruct (Nat.eqb l l0); eauto.
  Qed.

  Lemma read_var_ok (s : Store N) x c : store_ok s -> read_var s x = Some c -> ok N c.
  Proof.
    intros [H1 H2]. unfold read_var. destruct (st_env s x); [|discriminate]. apply H1.
  Qed.

  Lemma exec_store_ok (s : Store N) st s' :
    store_ok s -> exec s st = Some s' ->
    store_ok s' /\
    (forall l c0, st_heap s l = Some c0 -> exists c1, st_heap s' l = Some c1).
  Proof.
    intros H. pose proof H as [H1 H2].
    destruct st as [x|x y|x id wt|x wt|x|x o a b|x y]; simpl.
    - intros E; inversion E; subst. apply bind_store_ok; auto using new_ok.
    - destruct (st_env s y) as [l|] eqn:Ey; [|discriminate].
      intros E; inversion E; subst. split; [split|]; simpl; auto.
      + intros z l0. unfold fupd. destruct (Nat.eqb x z); eauto.
        intros E2; inversion E2; subst. eauto.
      + eauto.
    - apply mutate_store_ok; auto. intros. apply set_ok; auto.
    - apply mutate_store_ok; auto.
    - apply mutate_store_ok; auto. intros. constructor.
    - destruct (read_arg s a) as [p|] eqn:Ea; [|discriminate].
      destruct (read_arg s b) as [q|] eqn:Eb; [|discriminate].
      destruct (operate o p q) as [c|] eqn:Eo; [|discriminate].
      intros E; inversion E; subst. apply bind_store_ok; auto.
      assert (Hp : forall c0, p = OCtx c0 -> ok N c0).
      { intros c0 ->. destruct a as [z|]; simpl in Ea; [|discriminate].
        destruct (read_var s z) eqn:Ez; simpl in Ea; inversion Ea; subst.
        eapply read_var_ok; eauto. }
      assert (Hq : forall c0, q = OCtx c0 -> ok N c0).
      { intros c0 ->. destruct b as [z|]; simpl in Eb; [|discriminate].
        destruct (read_var s z) eqn:Ez; simpl in Eb; inversion Eb; subst.
        eapply read_var_ok; eauto. }
      destruct p as [c1|v1], q as [c2|v2]; simpl in Eo; inversion Eo; subst; auto.
      + apply bin_ok; auto.
      + apply num_ok; auto.
      + destruct o; inversion Eo; subst; apply num_ok; auto.
    - destruct (read_var s y) as [c|] eqn:Ey; [|discriminate].
      intros E; inversion E; subst. apply bind_store_ok; auto.
      apply not_ok. eapply read_var_ok; eauto.
  Qed.

  Lemma wf_exec (w : World) op : wf w -> wf (wexec w op).
  Proof.
    intros H. destruct op as [|l n v|l|l|d| |s|x|x]; simpl.
    - exact (wf_alloc w H).
    - apply wf_hit_set, H.
    - destruct (w_hits w l); auto. apply wf_new_from_dict, H.
    - destruct (w_hits w l); auto. rewrite pickle_is_deepcopy.
      apply wf_new_from_dict, H.
    - apply wf_new_from_dict, H.
    - apply wf_clear, H.
    - destruct (exec (w_store w) s) as [st|] eqn:E; auto.
      assert (Hs : store_ok (w_store w)).
      { split; [apply (wf_ok _ H) | apply (wf_env _ H)]. }
      destruct (exec_store_ok _ _ _ Hs E) as [[Q1 Q2] Q3].
      constructor; simpl; auto.
      + destruct (wf_cur _ H) as [c Hc]. eauto.
      + apply (wf_fresh _ H).
      + apply (wf_ints _ H).
    - destruct (st_env (w_store w) x) as [l|] eqn:E; auto.
      constructor; simpl; try apply H. apply (wf_env _ H x l E).
    - constructor; simpl; try apply H.
      intros y l. unfold fupd. destruct (Nat.eqb x y).
      + intros E; inversion E; subst. apply (wf_cur _ H).
      + apply (wf_env _ H).
  Qed.

  Lemma wf_run p : wf (wrun p).
  Proof.
    unfold wrun. assert (G : forall w, wf w -> wf (fold_left wexec p w)).
    { induction p as [|op p IH]; simpl; auto. intros w Hw. apply IH, wf_exec, Hw. }
    apply G, wf_init.
  Qed.

  (** ---- names ---- *)
  Lemma stored_get n : stored n ->
    (exists d, assoc get_dbl_map n = Some (DStored d) /\ assoc set_dbl_map n = Some (DStored d)
               /\ In n stored_floats) \/
    (exists i, assoc get_dbl_map n = None /\ assoc get_int_map n = Some i /\
               assoc set_dbl_map n = None /\ assoc set_int_map n = Some i /\
               In n stored_ints).
  Proof.
    intros [H|H].
    - left. unfold stored_floats in H. simpl in H.
      repeat (destruct H as [<-|H]; [eexists; split; [reflexivity|split; [reflexivity|simpl; tauto]]|]).
      contradiction.
    - right. unfold stored_ints in H. simpl in H.
      repeat (destruct H as [<-|H]; [eexists; repeat split; try reflexivity; simpl; tauto|]).
      contradiction.
  Qed.

  (** The stored variable a name resolves to when setting. *)
  Inductive Var := VD (d : DblVar) | VI (i : IntVar).
  Definition set_var (n : string) : option Var :=
    match assoc set_dbl_map n with
    | Some (DStored d) => Some (VD d)
    | Some _ => None
    | None => option_map VI (assoc set_int_map n)
    end.

  Lemma assoc_in {A} (m : list (string * A)) n v : assoc m n = Some v -> In (n, v) m.
  Proof.
    induction m as [|[k w] m IH]; simpl; [discriminate|].
    destruct (String.eqb_spec k n).
    - intros H; inversion H; subst. auto.
    - auto.
  Qed.

  Lemma set_var_canonical n n' v :
    stored n' -> set_var n = Some v -> set_var n' = Some v -> canonical n = canonical n'.
  Proof.
    intros Hs Hn Hn'.
    assert (Hn1 : stored n).
    { unfold set_var in Hn. destruct (assoc set_dbl_map n) as [[d| |]|] eqn:E; try discriminate.
      - apply assoc_in in E. left. simpl in E.
        repeat (destruct E as [E|E]; [inversion E; subst; simpl; tauto|]). contradiction.
      - destruct (assoc set_int_map n) as [i|] eqn:E2; try discriminate.
        apply assoc_in in E2. right. simpl in E2.
        repeat (destruct E2 as [E2|E2]; [inversion E2; subst; simpl; tauto|]). contradiction. }
    destruct Hn1 as [H1|H1], Hs as [H2|H2]; simpl in H1, H2;
    repeat (destruct H1 as [<-|H1];
      [repeat (destruct H2 as [<-|H2];
         [first [reflexivity | vm_compute in Hn; vm_compute in Hn'; congruence]|]); contradiction|]);
    contradiction.
  Qed.

  Lemma core_get_stored_dbl (c : Context) (h : Hit) n d :
    assoc get_dbl_map n = Some (DStored d) -> core_get c h n = Some (PFloat (h_dbl h d)).
  Proof. intros H. unfold core_get. rewrite H. reflexivity. Qed.

  Lemma core_get_stored_int (c : Context) (h : Hit) n i :
    assoc get_dbl_map n = None -> assoc get_int_map n = Some i ->
    core_get c h n = Some (PInt (h_int h i)).
  Proof. intros H H2. unfold core_get. rewrite H, H2. reflexivity. Qed.

  Lemma is_hit_of_get (w : World) l n v : hit_get w l n = Some v -> is_hit w l.
  Proof. unfold hit_get, is_hit. destruct (w_hits w l); congruence. Qed.

  (** ---- C05 ---- *)
  Lemma hit_get_some (w : World) l h n : w_hits w l = Some h -> hit_get w l n = core_get (cur_ctx w) h n.
  Proof. intros H. unfold hit_get. rewrite H. reflexivity. Qed.

  Lemma hit_get_after (w : World) l h' c' l' n :
    hit_get (with_hit (with_cur w c') l h') l' n =
    match (if Nat.eqb l l' then Some h' else w_hits w l') with
    | Some h => core_get c' h n
    | None => None
    end.
  Proof.
    unfold hit_get, with_hit; simpl. unfold fupd at 1.
    change (cur_ctx _) with (cur_ctx (with_cur w c')).
    rewrite cur_ctx_with_cur. reflexivity.
  Qed.

  Lemma set_get (w : World) l n v r :
    is_hit w l -> storable n v r ->
    snd (hit_set w l n v) = true /\ hit_get (fst (hit_set w l n v)) l n = Some r.
  Proof.
    intros Hh Hs. unfold is_hit in Hh. unfold hit_set.
    destruct (w_hits w l) as [h|] eqn:Eh; [|congruence].
    assert (Hst : stored n) by (inversion Hs; [left|left|right]; auto).
    unfold core_set.
    destruct (stored_get n Hst) as [(d & G1 & G2 & G3)|(i & G1 & G2 & G3 & G4 & G5)].
    - rewrite G2. inversion Hs; subst; simpl.
      + split; auto. rewrite hit_get_after, Nat.eqb_refl, (core_get_stored_dbl _ _ _ _ G1).
        simpl. destruct (dblvar_eq_dec d d); [auto|congruence].
      + split; auto. rewrite hit_get_after, Nat.eqb_refl, (core_get_stored_dbl _ _ _ _ G1).
        simpl. destruct (dblvar_eq_dec d d); [auto|congruence].
      + exfalso. simpl in *.
        repeat (match goal with H : _ \/ _ |- _ => destruct H; subst; try discriminate end);
        contradiction.
    - rewrite G3, G4. inversion Hs; subst; simpl.
      + exfalso. simpl in *.
        repeat (match goal with H : _ \/ _ |- _ => destruct H; subst; try discriminate end);
        contradiction.
      + exfalso. simpl in *.
        repeat (match goal with H : _ \/ _ |- _ => destruct H; subst; try discriminate end);
        contradiction.
      + rewrite in_long_range by auto. simpl. split; auto.
        rewrite hit_get_after, Nat.eqb_refl, (core_get_stored_int _ _ _ _ G1 G2).
        simpl. destruct (intvar_eq_dec i i); [|congruence]. rewrite wrap32_id; auto.
  Qed.

  Lemma core_set_frame (c : Context) (h : Hit) n v n' :
    stored n' -> canonical n' <> canonical n ->
    let '(h', c', b) := core_set c h n v in
    forall c1 c2, core_get c1 h' n' = core_get c2 h n'.
  Proof.
    intros Hs Hne.
    assert (Hd : forall x, set_var n = Some x -> set_var n' <> Some x).
    { intros x E1 E2. apply Hne. symmetry. eapply set_var_canonical; eauto. }
    assert (G : forall c1 c2, core_get c1 h n' = core_get c2 h n').
    { intros c1 c2. destruct (stored_get n' Hs) as [(d & G1 & G2 & G3)|(i & G1 & G2 & G3 & G4 & G5)].
      - rewrite !(core_get_stored_dbl _ _ _ _ G1). reflexivity.
      - rewrite !(core_get_stored_int _ _ _ _ G1 G2). reflexivity. }
    unfold core_set, set_var in *.
    destruct (assoc set_dbl_map n) as [[d0| |]|] eqn:E.
    - destruct (as_double v) as [x b]. intros c1 c2.
      destruct (stored_get n' Hs) as [(d & G1 & G2 & G3)|(i & G1 & G2 & G3 & G4 & G5)].
      + rewrite !(core_get_stored_dbl _ _ _ _ G1). simpl.
        destruct (dblvar_eq_dec d0 d); auto. subst. exfalso.
        apply (Hd _ eq_refl). rewrite G2. reflexivity.
      + rewrite !(core_get_stored_int _ _ _ _ G1 G2). reflexivity.
    - destruct (as_double v); exact G.
    - exact G.
    - destruct (assoc set_int_map n) as [i0|] eqn:E2; [|exact G].
      destruct (as_int v) as [z b]. intros c1 c2.
      destruct (stored_get n' Hs) as [(d & G1 & G2 & G3)|(i & G1 & G2 & G3 & G4 & G5)].
      + rewrite !(core_get_stored_dbl _ _ _ _ G1). reflexivity.
      + rewrite !(core_get_stored_int _ _ _ _ G1 G2). simpl.
        destruct (intvar_eq_dec i0 i); auto. subst. exfalso.
        apply (Hd _ eq_refl). rewrite G3, G4. reflexivity.
  Qed.

  Lemma core_get_stored_ctx (c1 c2 : Context) h n : stored n -> core_get (N:=N) c1 h n = core_get c2 h n.
  Proof.
    intros Hs. destruct (stored_get n Hs) as [(d & G1 & G2 & G3)|(i & G1 & G2 & G3 & G4 & G5)].
    - rewrite !(core_get_stored_dbl _ _ _ _ G1). reflexivity.
    - rewrite !(core_get_stored_int _ _ _ _ G1 G2). reflexivity.
  Qed.

  Lemma set_frame (w : World) l n v l' n' :
    stored n' -> (l' <> l \/ canonical n' <> canonical n) ->
    hit_get (fst (hit_set w l n v)) l' n' = hit_get w l' n'.
  Proof.
    intros Hs Hd. unfold hit_set. destruct (w_hits w l) as [h|] eqn:Eh; [|reflexivity].
    pose proof (fun H => core_set_frame (cur_ctx w) h n v n' Hs H) as Hf.
    destruct (core_set (cur_ctx w) h n v) as [[h' c'] b]; simpl.
    rewrite hit_get_after. unfold hit_get. destruct (Nat.eqb_spec l l').
    - subst l'. rewrite Eh. destruct Hd as [Hd|Hd]; [congruence|]. apply Hf, Hd.
    - destruct (w_hits w l'); auto. apply core_get_stored_ctx, Hs.
  Qed.

  Lemma set_unknown (w : World) l n v :
    ~ In n ("global_weight" :: stored_floats ++ stored_ints) ->
    snd (hit_set w l n v) = false /\
    (wf w -> forall l' n', hit_get (fst (hit_set w l n v)) l' n' = hit_get w l' n').
  Proof.
    intros Hn. unfold hit_set. destruct (w_hits w l) as [h|] eqn:Eh; [|auto].
    unfold core_set.
    assert (E1 : assoc set_dbl_map n = None).
    { destruct (assoc set_dbl_map n) as [k|] eqn:E; auto. exfalso. apply Hn.
      apply assoc_in in E. simpl in E.
      repeat (destruct E as [E|E]; [inversion E; subst; simpl; tauto|]). contradiction. }
    assert (E2 : assoc set_int_map n = None).
    { destruct (assoc set_int_map n) as [k|] eqn:E; auto. exfalso. apply Hn.
      apply assoc_in in E. simpl in E.
      repeat (destruct E as [E|E]; [inversion E; subst; simpl; tauto|]). contradiction. }
    rewrite E1, E2. simpl. split; auto. intros _ l' n'.
    rewrite hit_get_after. unfold hit_get. destruct (Nat.eqb_spec l l'); auto.
    subst. rewrite Eh. reflexivity.
  Qed.

  (** ---- C06 ---- *)
  Lemma track_id (w : World) l h : w_hits w l = Some h ->
    track w l = (Some (PInt (h_int h Ispill)), Some (PInt (h_int h Ievent)),
                 Some (PInt (h_int h Iparticle))).
  Proof. intros H. unfold track. rewrite !(hit_get_some _ _ _ _ H). reflexivity. Qed.

  Lemma track_eq_id (w : World) l l' h h' : w_hits w l = Some h -> w_hits w l' = Some h' ->
    (track w l = track w l' <-> weight_id h = weight_id h').
  Proof.
    intros H H'. rewrite (track_id _ _ _ H), (track_id _ _ _ H'). unfold weight_id.
    split; intros E; inversion E; congruence.
  Qed.

  Lemma gw_get (w : World) l h : w_hits w l = Some h ->
    hit_get w l "global_weight" = Some (PFloat (get_weight (cur_ctx w) (weight_id h))).
  Proof. intros H. rewrite (hit_get_some _ _ _ _ H). reflexivity. Qed.

  Lemma gw_shared (w : World) l l' :
    is_hit w l -> is_hit w l' -> track w l = track w l' ->
    hit_get w l "global_weight" = hit_get w l' "global_weight".
  Proof.
    unfold is_hit. intros H H' E.
    destruct (w_hits w l) as [h|] eqn:E1; [|congruence].
    destruct (w_hits w l') as [h'|] eqn:E2; [|congruence].
    rewrite (gw_get _ _ _ E1), (gw_get _ _ _ E2).
    apply (track_eq_id _ _ _ _ _ E1 E2) in E. rewrite E. reflexivity.
  Qed.

  Lemma get_weight_set (c : Context) id x id' : ok N c ->
    get_weight (set_weight c id x) id' = if hid_dec id' id then x else get_weight c id'.
  Proof.
    intros H. unfold get_weight, set_weight; simpl. rewrite find_assign by exact H.
    destruct (hid_dec id' id); auto.
  Qed.

  Lemma gw_set_exact (w : World) l x l' :
    wf w -> is_hit w l -> is_hit w l' ->
    let w' := fst (hit_set w l "global_weight" (PFloat x)) in
    (track w l' = track w l -> hit_get w' l' "global_weight" = Some (PFloat x)) /\
    (track w l' <> track w l ->
     hit_get w' l' "global_weight" = hit_get w l' "global_weight").
  Proof.
    intros Hw H H'. unfold is_hit in *. unfold hit_set.
    destruct (w_hits w l) as [h|] eqn:E1; [|congruence].
    destruct (w_hits w l') as [h'|] eqn:E2; [|congruence].
    unfold core_set. simpl assoc. cbv iota beta zeta. simpl as_double. cbv iota beta zeta.
    simpl fst. rewrite hit_get_after.
    assert (Hsel : (if Nat.eqb l l' then Some h else w_hits w l') = Some h').
    { destruct (Nat.eqb_spec l l'); auto. subst. congruence. }
    rewrite Hsel, (gw_get _ _ _ E2).
    rewrite (track_eq_id _ _ _ _ _ E2 E1).
    assert (Hg : core_get (set_weight (cur_ctx w) (weight_id h) x) h' "global_weight" =
      Some (PFloat (get_weight (set_weight (cur_ctx w) (weight_id h) x) (weight_id h'))))
      by reflexivity.
    rewrite Hg, get_weight_set by (apply wf_cur_ok, Hw).
    destruct (hid_dec (weight_id h') (weight_id h)); split; intros; congruence.
  Qed.

  Lemma weight_product (w : World) l : is_hit w l ->
    exists lw gw, hit_get w l "local_weight" = Some (PFloat lw) /\
                  hit_get w l "global_weight" = Some (PFloat gw) /\
                  hit_get w l "weight" = Some (PFloat (nmul lw gw)).
  Proof.
    unfold is_hit, hit_get. destruct (w_hits w l) as [h|]; [|congruence]. intros _.
    exists (h_dbl h Vlocal_weight), (global_weight (cur_ctx w) h).
    repeat split; reflexivity.
  Qed.

  Lemma clear_weights_all (w : World) l : is_hit w l ->
    hit_get (clear_global_weights w) l "global_weight" =
    Some (PFloat (get_default_weight (cur_ctx w))).
  Proof.
    unfold is_hit, hit_get, clear_global_weights; simpl.
    destruct (w_hits w l) as [h|]; [|congruence]. intros _.
    rewrite cur_ctx_with_cur. reflexivity.
  Qed.

  Lemma clear_weights_frame (w : World) l n : stored n ->
    hit_get (clear_global_weights w) l n = hit_get w l n.
  Proof.
    intros Hs. unfold hit_get, clear_global_weights; simpl.
    destruct (w_hits w l); auto. apply core_get_stored_ctx, Hs.
  Qed.

  (** ---- C07 ---- *)
  Lemma hit_context_swapped (w : World) l x s e p :
    wf w -> is_hit w l -> track_is w l s e p ->
    get_weight (cur_ctx (fst (hit_set w l "global_weight" (PFloat x)))) (mkHitId s p e) = x.
  Proof.
    intros Hw H Ht. unfold is_hit in H. unfold hit_set.
    destruct (w_hits w l) as [h|] eqn:E1; [|congruence].
    unfold track_is in Ht. rewrite (track_id _ _ _ E1) in Ht. inversion Ht; subst.
    unfold core_set. simpl assoc. cbv iota beta zeta. simpl as_double. cbv iota beta zeta.
    simpl fst. change (cur_ctx _) with (cur_ctx (with_cur w (set_weight (cur_ctx w) (weight_id h) x))).
    rewrite cur_ctx_with_cur, get_weight_set by (apply wf_cur_ok, Hw).
    unfold weight_id. destruct (hid_dec _ _); congruence.
  Qed.

  (** ---- C08, C09: copying ---- *)
  Fixpoint core_set_all (c : Context) (h : Hit) (d : list (string * PyVal N))
    : Hit * Context * bool :=
    match d with
    | [] => (h, c, true)
    | (k, v) :: r =>
        let '(h', c', ok) := core_set c h k v in
        if ok then core_set_all c' h' r else (h', c', false)
    end.

  Lemma set_all_core d : forall (w : World) l h,
    w_hits w l = Some h ->
    let '(h', c', b) := core_set_all (cur_ctx w) h d in
    let (w', b') := set_all w l d in
    b' = b /\ w_hits w' l = Some h' /\ cur_ctx w' = c' /\
    (forall l', l' <> l -> w_hits w' l' = w_hits w l').
  Proof.
    induction d as [|[k v] d IH]; simpl; intros w l h Hh.
    - auto.
    - unfold hit_set. rewrite Hh.
      destruct (core_set (cur_ctx w) h k v) as [[h1 c1] b1].
      set (w1 := with_hit (with_cur w c1) l h1).
      assert (Hc : cur_ctx w1 = c1).
      { unfold w1. rewrite cur_ctx_with_hit. apply cur_ctx_with_cur. }
      assert (Hl : w_hits w1 l = Some h1) by (unfold w1; simpl; apply fupd_same).
      assert (Ho : forall l', l' <> l -> w_hits w1 l' = w_hits w l').
      { intros l' Hne. unfold w1; simpl. apply fupd_other. auto. }
      destruct b1.
      + specialize (IH w1 l h1 Hl). rewrite Hc in IH.
        destruct (core_set_all c1 h1 d) as [[h' c'] b].
        destruct (set_all w1 l d) as [w' b'].
        destruct IH as (Q1 & Q2 & Q3 & Q4).
        repeat split; auto. intros l' Hne. rewrite Q4 by auto. auto.
      + auto.
  Qed.

  Lemma dict_value (w : World) l h : w_hits w l = Some h ->
    dict_from_hit w l =
    flat_map (fun k => match core_get (cur_ctx w) h k with Some v => [(k, v)] | None => [] end)
             set_names.
  Proof.
    intros H. unfold dict_from_hit. apply flat_map_ext. intros k.
    rewrite (hit_get_some _ _ _ _ H). reflexivity.
  Qed.

  Lemma copy_core (c : Context) (h : Hit) :
    (forall i, (-2147483648 <= h_int h i < 2147483648)%Z) ->
    let '(h', c', b) := core_set_all c hit_new
      (flat_map (fun k => match core_get c h k with Some v => [(k, v)] | None => [] end)
                set_names) in
    b = true /\ (forall d, h_dbl h' d = h_dbl h d) /\ (forall i, h_int h' i = h_int h i) /\
    c' = set_weight c (mkHitId 0 0 0) (global_weight c h).
  Proof.
    intros Hi.
    assert (Hw : forall i, wrap32 (h_int h i) = h_int h i) by (intros; apply wrap32_id; auto).
    assert (Hl : forall i, in_long (h_int h i) = true) by (intros; apply in_long_range; auto).
    cbn -[wrap32 in_long set_weight get_weight global_weight].
    rewrite !Hl. cbn -[wrap32 in_long set_weight get_weight global_weight].
    repeat split; auto.
    - intros d; destruct d; reflexivity.
    - intros i; destruct i; simpl; auto.
  Qed.

  Lemma weight_id_ext (h h' : Hit) : (forall i, h_int h' i = h_int h i) -> weight_id h' = weight_id h.
  Proof. intros H. unfold weight_id. rewrite !H. reflexivity. Qed.

  Lemma core_get_ext (c c' : Context) (h h' : Hit) n :
    (forall d, h_dbl h' d = h_dbl h d) -> (forall i, h_int h' i = h_int h i) ->
    get_weight c' (weight_id h) = get_weight c (weight_id h) ->
    core_get c' h' n = core_get c h n.
  Proof.
    intros Hd Hi Hg. unfold core_get.
    destruct (assoc get_dbl_map n) as [[d| |]|]; cbn [read_dbl].
    - rewrite Hd. reflexivity.
    - unfold global_weight. rewrite (weight_id_ext _ _ Hi), Hg. reflexivity.
    - unfold global_weight. rewrite (weight_id_ext _ _ Hi), Hg, Hd. reflexivity.
    - destruct (assoc get_int_map n); auto. rewrite Hi. reflexivity.
  Qed.

  Lemma deepcopy_effect (w : World) l h :
    wf w -> w_hits w l = Some h ->
    let '(w', l', b) := deepcopy w l in
    b = true /\ l' = w_next w /\ l <> l' /\ w_hits w l' = None /\
    (exists h', w_hits w' l' = Some h' /\
       (forall d, h_dbl h' d = h_dbl h d) /\ (forall i, h_int h' i = h_int h i)) /\
    (forall k, k <> l' -> w_hits w' k = w_hits w k) /\
    cur_ctx w' = set_weight (cur_ctx w) (mkHitId 0 0 0) (global_weight (cur_ctx w) h).
  Proof.
    intros Hw Hh. unfold deepcopy, new_from_dict, hit_alloc.
    rewrite (dict_value _ _ _ Hh).
    set (w1 := mkWorld (fupd (w_hits w) (w_next w) hit_new) (S (w_next w)) (w_store w) (w_cur w)).
    set (d := flat_map _ set_names).
    assert (Hl : w_hits w1 (w_next w) = Some hit_new) by (unfold w1; simpl; apply fupd_same).
    pose proof (set_all_core d w1 (w_next w) hit_new Hl) as Hs.
    change (cur_ctx w1) with (cur_ctx w) in Hs.
    pose proof (copy_core (cur_ctx w) h (fun i => wf_ints _ Hw l h i Hh)) as Hc.
    fold d in Hc.
    destruct (core_set_all (cur_ctx w) hit_new d) as [[h' c'] b].
    destruct (set_all w1 (w_next w) d) as [w2 b2].
    destruct Hs as (Q1 & Q2 & Q3 & Q4). destruct Hc as (R1 & R2 & R3 & R4).
    assert (Hfresh : w_hits w (w_next w) = None) by (apply (wf_fresh _ Hw); lia).
    repeat split.
    - congruence.
    - intros ->. congruence.
    - exact Hfresh.
    - exists h'. auto.
    - intros k Hk. rewrite Q4 by auto. unfold w1; simpl. apply fupd_other. auto.
    - congruence.
  Qed.

  Lemma zero_write_self (c : Context) (h : Hit) :
    ok N c ->
    get_weight (set_weight c (mkHitId 0 0 0) (global_weight c h)) (weight_id h) =
    get_weight c (weight_id h).
  Proof.
    intros H. rewrite get_weight_set by auto. unfold global_weight.
    destruct (hid_dec (weight_id h) (mkHitId 0 0 0)) as [E|]; auto.
  Qed.

  Lemma copy_faithful (w : World) l :
    wf w -> is_hit w l ->
    let '(w', l', b) := deepcopy w l in
    b = true /\ ~ is_hit w l' /\ is_hit w' l' /\
    (forall n, hit_get w' l' n = hit_get w l n) /\
    (forall n, hit_get w' l n = hit_get w l n).
  Proof.
    intros Hw H. unfold is_hit in *. destruct (w_hits w l) as [h|] eqn:Eh; [|congruence].
    pose proof (deepcopy_effect w l h Hw Eh) as He.
    destruct (deepcopy w l) as [[w' l'] b].
    destruct He as (Q1 & Q2 & Q3 & Q4 & (h' & Q5 & Q6 & Q7) & Q8 & Q9).
    pose proof (zero_write_self (cur_ctx w) h (wf_cur_ok _ Hw)) as Hz.
    repeat split; auto; try congruence.
    - intros n. unfold hit_get. rewrite Q5, Eh, Q9. apply core_get_ext; auto.
    - intros n. unfold hit_get. rewrite Q8, Eh, Q9 by auto. apply core_get_ext; auto.
  Qed.

  Lemma copy_collateral (w : World) l g :
    wf w -> is_hit w l -> is_hit w g ->
    let '(w', l', b) := deepcopy w l in
    (forall n, stored n -> hit_get w' g n = hit_get w g n) /\
    (~ track_is w g 0 0 0 -> forall n, hit_get w' g n = hit_get w g n) /\
    (track_is w g 0 0 0 ->
     hit_get w' g "global_weight" = hit_get w l "global_weight").
  Proof.
    intros Hw H Hg. unfold is_hit in *.
    destruct (w_hits w l) as [h|] eqn:Eh; [|congruence].
    destruct (w_hits w g) as [k|] eqn:Ek; [|congruence].
    pose proof (deepcopy_effect w l h Hw Eh) as He.
    destruct (deepcopy w l) as [[w' l'] b].
    destruct He as (Q1 & Q2 & Q3 & Q4 & (h' & Q5 & Q6 & Q7) & Q8 & Q9).
    assert (Hne : g <> l') by (intros ->; congruence).
    assert (Hid : track_is w g 0 0 0 <-> weight_id k = mkHitId 0 0 0).
    { unfold track_is. rewrite (track_id _ _ _ Ek). unfold weight_id.
      split; intros E; inversion E; congruence. }
    repeat split.
    - intros n Hs. unfold hit_get. rewrite Q8, Ek by auto. apply core_get_stored_ctx, Hs.
    - intros Hn n. unfold hit_get. rewrite Q8, Ek, Q9 by auto. apply core_get_ext; auto.
      rewrite get_weight_set by (apply wf_cur_ok, Hw).
      destruct (hid_dec _ _); auto. tauto.
    - intros Ht. apply Hid in Ht.
      assert (Ek' : w_hits w' g = Some k) by (rewrite Q8; auto).
      rewrite (gw_get _ _ _ Ek'), (gw_get _ _ _ Eh), Q9, Ht.
      rewrite get_weight_set by (apply wf_cur_ok, Hw).
      destruct (hid_dec _ _); [reflexivity|congruence].
  Qed.

End P.
