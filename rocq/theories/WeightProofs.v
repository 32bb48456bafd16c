(** Proofs about weight contexts. *)
From Coq Require Import ZArith List Bool Lia Sorted.
From Verif Require Import Num WeightModel WeightSpec.
Import ListNotations.

Lemma hid_ltb_irrefl a : hid_ltb a a = false.
Proof. unfold hid_ltb. rewrite !Z.eqb_refl. apply Z.ltb_irrefl. Qed.

Lemma hid_ltb_trans a b c :
  hid_ltb a b = true -> hid_ltb b c = true -> hid_ltb a c = true.
Proof.
  unfold hid_ltb.
  destruct (Z.eqb_spec (hid_spill a) (hid_spill b));
  destruct (Z.eqb_spec (hid_event a) (hid_event b));
  destruct (Z.eqb_spec (hid_spill b) (hid_spill c));
  destruct (Z.eqb_spec (hid_event b) (hid_event c));
  destruct (Z.eqb_spec (hid_spill a) (hid_spill c));
  destruct (Z.eqb_spec (hid_event a) (hid_event c));
  rewrite ?Z.ltb_lt; intros; lia.
Qed.

Lemma hid_ltb_total a b :
  hid_ltb a b = false -> hid_ltb b a = false -> a = b.
Proof.
  unfold hid_ltb. destruct a as [a1 a2 a3], b as [b1 b2 b3]; simpl.
  destruct (Z.eqb_spec a1 b1); destruct (Z.eqb_spec b1 a1);
  destruct (Z.eqb_spec a2 b2); destruct (Z.eqb_spec b2 a2);
  rewrite ?Z.ltb_ge; intros; try lia; f_equal; lia.
Qed.

Lemma hid_ltb_asym a b : hid_ltb a b = true -> hid_ltb b a = false.
Proof.
  intros H. destruct (hid_ltb b a) eqn:E; auto.
  rewrite <- (hid_ltb_irrefl a). symmetry. eapply hid_ltb_trans; eauto.
Qed.

Section P.
  Variable N : NumOps.
  Notation Map := (list (HitId * N)).

  Definition lt_pair (a b : HitId * N) : Prop := hid_ltb (fst a) (fst b) = true.
  Definition sorted (m : Map) : Prop := StronglySorted lt_pair m.

  Lemma find_above (m : Map) id :
    Forall (fun kv => hid_ltb id (fst kv) = true) m -> map_find m id = None.
  Proof.
    induction m as [|[k v] m IH]; simpl; auto.
    intros H. inversion H; subst; simpl in *.
    rewrite (hid_ltb_asym _ _ H2), H2. reflexivity.
  Qed.

  Lemma find_assign (m : Map) id w id' :
    sorted m ->
    map_find (map_assign m id w) id' = if hid_dec id' id then Some w else map_find m id'.
  Proof.
    induction m as [|[k v] m IH]; simpl; intros Hs.
    - destruct (hid_dec id' id) as [->|Hne].
      + rewrite hid_ltb_irrefl. reflexivity.
      + destruct (hid_ltb id id') eqn:E1; auto.
        destruct (hid_ltb id' id) eqn:E2; auto.
        exfalso. apply Hne. apply hid_ltb_total; auto.
    - inversion Hs; subst.
      destruct (hid_ltb k id) eqn:E1; simpl.
      + destruct (hid_ltb k id') eqn:E2; auto.
        destruct (hid_ltb id' k) eqn:E3.
        * destruct (hid_dec id' id) as [->|]; auto.
          rewrite E1 in E2. discriminate.
        * destruct (hid_dec id' id) as [->|]; auto. congruence.
      + destruct (hid_ltb id k) eqn:E2; simpl.
        * destruct (hid_dec id' id) as [->|Hne].
          -- rewrite hid_ltb_irrefl. reflexivity.
          -- destruct (hid_ltb id id') eqn:E3; auto.
             destruct (hid_ltb id' id) eqn:E4.
             ++ pose proof (hid_ltb_trans _ _ _ E4 E2) as E5.
                rewrite (hid_ltb_asym _ _ E5), E5. reflexivity.
             ++ exfalso. apply Hne. apply hid_ltb_total; auto.
        * pose proof (hid_ltb_total _ _ E1 E2) as ->.
          destruct (hid_dec id' id) as [->|Hne].
          -- rewrite hid_ltb_irrefl. reflexivity.
          -- destruct (hid_ltb id id') eqn:E3; auto.
             destruct (hid_ltb id' id) eqn:E4; auto.
             exfalso. apply Hne. apply hid_ltb_total; auto.
  Qed.

  Lemma assign_forall (P : HitId -> Prop) (m : Map) id w :
    P id -> Forall (fun kv => P (fst kv)) m ->
    Forall (fun kv => P (fst kv)) (map_assign m id w).
  Proof.
    intros Hid. induction m as [|[k v] m IH]; simpl; intros H.
    - repeat constructor; auto.
    - inversion H; subst. simpl in *.
      destruct (hid_ltb k id); [constructor; auto|].
      destruct (hid_ltb id k); repeat constructor; auto.
  Qed.

  Lemma assign_sorted (m : Map) id w : sorted m -> sorted (map_assign m id w).
  Proof.
    unfold sorted.
    induction m as [|[k v] m IH]; simpl; intros Hs.
    - repeat constructor.
    - inversion Hs; subst.
      destruct (hid_ltb k id) eqn:E1.
      + constructor; auto.
        apply (assign_forall (fun i => hid_ltb k i = true)); auto.
      + destruct (hid_ltb id k) eqn:E2.
        * constructor; auto. constructor; auto.
          eapply Forall_impl; [|exact H2]. unfold lt_pair; simpl.
          intros a Ha. eapply hid_ltb_trans; eauto.
        * constructor; auto.
  Qed.

  Lemma map_values_find (m : Map) (f : HitId -> N -> N) id :
    map_find (map (fun kv => (fst kv, f (fst kv) (snd kv))) m) id =
    option_map (f id) (map_find m id).
  Proof.
    induction m as [|[k v] m IH]; simpl; auto.
    destruct (hid_ltb k id) eqn:E1; auto.
    destruct (hid_ltb id k) eqn:E2; simpl; auto.
    rewrite (hid_ltb_total _ _ E1 E2). reflexivity.
  Qed.

  Lemma map_values_sorted (m : Map) (f : HitId -> N -> N) :
    sorted m -> sorted (map (fun kv => (fst kv, f (fst kv) (snd kv))) m).
  Proof.
    unfold sorted. induction m as [|[k v] m IH]; simpl; intros Hs; [constructor|].
    inversion Hs; subst. constructor; auto.
    rewrite Forall_map. exact H2.
  Qed.

  Lemma insert_sorted (m : Map) id w : sorted m -> sorted (map_insert m id w).
  Proof. unfold map_insert. destruct (map_find m id); auto using assign_sorted. Qed.

  Lemma insert_find (m : Map) id w id' :
    sorted m ->
    map_find (map_insert m id w) id' =
    match map_find m id' with
    | Some v => Some v
    | None => if hid_dec id' id then Some w else None
    end.
  Proof.
    intros Hs. unfold map_insert.
    destruct (map_find m id) eqn:E.
    - destruct (map_find m id') eqn:E'; auto.
      destruct (hid_dec id' id) as [->|]; auto. congruence.
    - rewrite find_assign by auto.
      destruct (hid_dec id' id) as [->|]; auto.
      + rewrite E. reflexivity.
      + destruct (map_find m id'); auto.
  Qed.

  Lemma adopt_map_sorted (d : N) (r m : Map) :
    sorted m -> sorted (fold_left (fun m kv => map_insert m (fst kv) d) r m).
  Proof.
    revert m. induction r as [|[k v] r IH]; simpl; intros m Hs; auto.
    apply IH, insert_sorted, Hs.
  Qed.

  Lemma adopt_map_find (d : N) (r m : Map) id :
    sorted m -> sorted r ->
    map_find (fold_left (fun m kv => map_insert m (fst kv) d) r m) id =
    match map_find m id with
    | Some v => Some v
    | None => match map_find r id with Some _ => Some d | None => None end
    end.
  Proof.
    revert m. induction r as [|[k v] r IH]; simpl; intros m Hm Hr.
    - destruct (map_find m id); auto.
    - inversion Hr; subst.
      rewrite IH by auto using insert_sorted.
      rewrite insert_find by auto.
      destruct (map_find m id); auto.
      destruct (hid_dec id k) as [->|Hne].
      + rewrite hid_ltb_irrefl. reflexivity.
      + destruct (hid_ltb k id) eqn:E1; auto.
        destruct (hid_ltb id k) eqn:E2.
        * rewrite find_above; auto.
          eapply Forall_impl; [|exact H2]. unfold lt_pair; simpl.
          intros a Ha. eapply hid_ltb_trans; eauto.
        * exfalso. apply Hne. symmetry. apply hid_ltb_total; auto.
  Qed.

  (** The abstraction of a concrete context. *)
  Definition abs (c : Context N) : AbsCtx N := mkAbs N (map_find (ctx_map c)) (ctx_default c).

  (** Pointwise equality of abstract contexts. *)
  Definition aeq (a b : AbsCtx N) : Prop :=
    (forall id, explicit a id = explicit b id) /\ dflt a = dflt b.

  Definition ok (c : Context N) : Prop := sorted (ctx_map c).

  Lemma aeq_refl a : aeq a a. Proof. split; auto. Qed.
  Lemma aeq_trans a b c : aeq a b -> aeq b c -> aeq a c.
  Proof. intros [H1 H2] [H3 H4]. split; intros; congruence. Qed.

  Lemma aeq_weight a b id : aeq a b -> weight_of a id = weight_of b id.
  Proof. intros [H1 H2]. unfold weight_of. rewrite H1, H2. reflexivity. Qed.

  Lemma get_weight_abs c id : get_weight c id = weight_of (abs c) id.
  Proof. reflexivity. Qed.

  Lemma new_ok : ok ctx_new. Proof. constructor. Qed.
  Lemma new_abs : aeq (abs ctx_new) (a_new N). Proof. split; reflexivity. Qed.

  Lemma set_ok c id w : ok c -> ok (set_weight c id w).
  Proof. apply assign_sorted. Qed.
  Lemma set_abs c id w : ok c -> aeq (abs (set_weight c id w)) (a_set N (abs c) id w).
  Proof. intros H. split; simpl; auto. intros i. apply find_assign, H. Qed.

  Lemma bin_ok op (a b : Context N) : ok a -> ok (op_context op a b).
  Proof.
    intros Ha. unfold ok, op_context, adopt_hits; simpl.
    apply (map_values_sorted _ (fun i v => op v (get_weight b i))).
    apply adopt_map_sorted, Ha.
  Qed.

  Lemma bin_abs op (a b : Context N) :
    ok a -> ok b -> aeq (abs (op_context op a b)) (a_bin N op (abs a) (abs b)).
  Proof.
    intros Ha Hb. split; simpl; auto. intros i.
    rewrite (map_values_find _ (fun i v => op v (get_weight b i))).
    rewrite adopt_map_find by auto.
    rewrite get_weight_abs. unfold weight_of; simpl.
    destruct (map_find (ctx_map a) i); simpl; auto.
    destruct (map_find (ctx_map b) i); simpl; auto.
  Qed.

  Lemma num_ok op (a : Context N) v : ok a -> ok (op_double op a v).
  Proof. apply (map_values_sorted _ (fun _ w => op w v)). Qed.
  Lemma num_abs op (a : Context N) v : aeq (abs (op_double op a v)) (a_num N op (abs a) v).
  Proof.
    split; simpl; auto. intros i. apply (map_values_find _ (fun _ w => op w v)).
  Qed.

  Lemma not_ok (a : Context N) : ok a -> ok (operate_not a).
  Proof.
    apply (map_values_sorted _ (fun _ w => if neqb w n0 then ctx_default a else n0)).
  Qed.
  Lemma not_abs (a : Context N) : aeq (abs (operate_not a)) (a_not N (abs a)).
  Proof.
    split; simpl; auto. intros i.
    apply (map_values_find _ (fun _ w => if neqb w n0 then ctx_default a else n0)).
  Qed.

  (** Abstract operations respect pointwise equality. *)
  Lemma a_set_proper a b id w : aeq a b -> aeq (a_set N a id w) (a_set N b id w).
  Proof. intros [H1 H2]. split; simpl; auto. intros i. rewrite H1. reflexivity. Qed.
  Lemma a_set_default_proper a b w :
    aeq a b -> aeq (a_set_default N a w) (a_set_default N b w).
  Proof. intros [H1 H2]. split; simpl; auto. Qed.
  Lemma a_clear_proper a b : aeq a b -> aeq (a_clear N a) (a_clear N b).
  Proof. intros [H1 H2]. split; simpl; auto. Qed.
  Lemma a_bin_proper op a a' b b' :
    aeq a a' -> aeq b b' -> aeq (a_bin N op a b) (a_bin N op a' b').
  Proof.
    intros H H'. pose proof H as [H1 H2]. pose proof H' as [H3 H4].
    split; simpl; [|congruence].
    intros i. rewrite H1, H3, (aeq_weight _ _ i H), (aeq_weight _ _ i H'). reflexivity.
  Qed.
  Lemma a_num_proper op a b v : aeq a b -> aeq (a_num N op a v) (a_num N op b v).
  Proof. intros [H1 H2]. split; simpl; [|congruence]. intros i. rewrite H1. reflexivity. Qed.
  Lemma a_not_proper a b : aeq a b -> aeq (a_not N a) (a_not N b).
  Proof. intros [H1 H2]. split; simpl; auto. intros i. rewrite H1, H2. reflexivity. Qed.

  (** Simulation relation between program states. *)
  Definition obj_rel (c : option (Context N)) (a : option (AbsCtx N)) : Prop :=
    match c, a with
    | Some c, Some a => ok c /\ aeq (abs c) a
    | None, None => True
    | _, _ => False
    end.

  Definition sim (s : Store N) (t : AStore N) : Prop :=
    (forall x, st_env s x = as_env _ t x) /\
    (forall l, obj_rel (st_heap s l) (as_obj _ t l)) /\
    st_next s = as_next _ t.

  Lemma sim_empty : sim store_empty as_empty.
  Proof. split; [|split]; simpl; auto. Qed.

  Lemma sim_read s t x : sim s t -> obj_rel (read_var s x) (as_read t x).
  Proof.
    intros (H1 & H2 & H3). unfold read_var, as_read. rewrite H1.
    destruct (as_env N t x); simpl; auto.
  Qed.

  Definition operand_rel (a : Operand N) (b : AOperand N) : Prop :=
    match a, b with
    | OCtx c, AbsC _ a => ok c /\ aeq (abs c) a
    | ONum v, AbsN _ w => v = w
    | _, _ => False
    end.

  Lemma sim_arg s t a :
    sim s t ->
    match read_arg s a, as_arg N t a with
    | Some x, Some y => operand_rel x y
    | None, None => True
    | _, _ => False
    end.
  Proof.
    intros H. destruct a as [x|v]; simpl; auto.
    pose proof (sim_read s t x H) as Hr.
    destruct (read_var s x), (as_read t x); simpl in *; auto.
  Qed.

  Lemma sim_operate o x y a b :
    operand_rel x a -> operand_rel y b ->
    obj_rel (operate o x y) (a_operate N o a b).
  Proof.
    destruct x as [c|v], a as [a|w], y as [c'|v'], b as [b|w']; simpl; intros H H';
      try contradiction; auto.
    - destruct H as [Ho Ha], H' as [Ho' Ha']. split; [apply bin_ok; auto|].
      eapply aeq_trans; [apply bin_abs; auto|]. apply a_bin_proper; auto.
    - destruct H as [Ho Ha]. subst. split; [apply num_ok; auto|].
      eapply aeq_trans; [apply num_abs|]. apply a_num_proper; auto.
    - destruct H' as [Ho Ha]. subst. destruct o; simpl; auto;
        (split; [apply num_ok; auto|];
         eapply aeq_trans; [apply num_abs|]; apply a_num_proper; auto).
  Qed.

  Lemma sim_bind s t x c a :
    sim s t -> ok c -> aeq (abs c) a -> sim (bind_new s x c) (as_bind N t x a).
  Proof.
    intros (H1 & H2 & H3) Ho Ha. split; [|split]; simpl.
    - intros y. unfold fupd. rewrite H3. destruct (Nat.eqb x y); auto.
    - intros l. unfold fupd. rewrite H3. destruct (Nat.eqb _ l); simpl; auto.
    - congruence.
  Qed.

  Lemma sim_mutate s t x f g :
    sim s t ->
    (forall c a, ok c -> aeq (abs c) a -> ok (f c) /\ aeq (abs (f c)) (g a)) ->
    match mutate s x f, as_mutate N t x g with
    | Some s', Some t' => sim s' t'
    | None, None => True
    | _, _ => False
    end.
  Proof.
    intros (H1 & H2 & H3) Hf. unfold mutate, as_mutate. rewrite H1.
    destruct (as_env N t x) as [l|]; auto.
    pose proof (H2 l) as Hl. unfold obj_rel in Hl.
    destruct (st_heap s l) as [c|], (as_obj N t l) as [a|]; auto.
    destruct Hl as [Ho Ha]. split; [|split]; simpl; auto.
    intros l'. unfold fupd. destruct (Nat.eqb l l'); simpl; auto.
  Qed.

  Lemma sim_exec s t st :
    sim s t ->
    match exec s st, a_exec N t st with
    | Some s', Some t' => sim s' t'
    | None, None => True
    | _, _ => False
    end.
  Proof.
    intros H. destruct st as [x|x y|x id w|x w|x|x o l r|x y]; simpl.
    - apply sim_bind; auto using new_ok, new_abs.
    - pose proof H as (H1 & H2 & H3). rewrite H1.
      destruct (as_env N t y); simpl; auto.
      split; [|split]; simpl; auto. intros z. unfold fupd.
      destruct (Nat.eqb x z); auto.
    - apply sim_mutate; auto. intros c a Ho Ha. split; [apply set_ok; auto|].
      eapply aeq_trans; [apply set_abs; auto|]. apply a_set_proper; auto.
    - apply sim_mutate; auto. intros c a Ho Ha. split; [exact Ho|].
      eapply aeq_trans; [|apply a_set_default_proper, Ha]. split; reflexivity.
    - apply sim_mutate; auto. intros c a Ho Ha. split; [constructor|].
      eapply aeq_trans; [|apply a_clear_proper, Ha]. split; reflexivity.
    - pose proof (sim_arg s t l H) as Hl. pose proof (sim_arg s t r H) as Hr.
      destruct (read_arg s l) as [a|], (as_arg N t l) as [a'|]; try contradiction; auto.
      destruct (read_arg s r) as [b|], (as_arg N t r) as [b'|]; try contradiction; auto.
      pose proof (sim_operate o a b a' b' Hl Hr) as Ho.
      destruct (operate o a b), (a_operate N o a' b'); simpl in *; auto.
      destruct Ho. apply sim_bind; auto.
    - pose proof (sim_read s t y H) as Hy.
      destruct (read_var s y) as [c|], (as_read t y) as [a|]; simpl in *; auto.
      destruct Hy as [Ho Ha]. apply sim_bind; auto using not_ok.
      eapply aeq_trans; [apply not_abs|]. apply a_not_proper; auto.
  Qed.

  Lemma sim_run p : forall s t, sim s t -> sim (run s p) (a_run t p).
  Proof.
    induction p as [|st p IH]; simpl; intros s t H; auto.
    apply IH. pose proof (sim_exec s t st H) as He.
    destruct (exec s st), (a_exec N t st); try contradiction; auto.
  Qed.

  Lemma obtainable_ok c : obtainable c -> ok c.
  Proof.
    intros (p & x & H).
    pose proof (sim_read _ _ x (sim_run p _ _ sim_empty)) as Hr.
    rewrite H in Hr. unfold obj_rel in Hr.
    destruct (as_read _ x); [|contradiction]. apply Hr.
  Qed.

  (** ---- the lemmas behind the property theorems ---- *)

  Lemma programs_refine (p : list (Stmt N)) x :
    match read_var (run store_empty p) x, as_read (a_run as_empty p) x with
    | Some c, Some a =>
        (forall id, get_weight c id = weight_of a id) /\ get_default_weight c = dflt a
    | None, None => True
    | _, _ => False
    end.
  Proof.
    pose proof (sim_read _ _ x (sim_run p _ _ sim_empty)) as Hr.
    destruct (read_var _ x), (as_read _ x); simpl in *; auto.
    destruct Hr as [Ho Ha]. split; [|apply Ha].
    intros id. rewrite get_weight_abs. apply aeq_weight, Ha.
  Qed.

  Lemma ctx_ctx_pointwise o (a b : Context N) :
    obtainable a -> obtainable b ->
    exists c, operate o (OCtx a) (OCtx b) = Some c /\
      (forall id, get_weight c id = num_op o (get_weight a id) (get_weight b id)) /\
      get_default_weight c = num_op o (get_default_weight a) (get_default_weight b).
  Proof.
    intros Ha Hb. apply obtainable_ok in Ha. apply obtainable_ok in Hb.
    eexists. split; [reflexivity|]. split; [|reflexivity].
    intros id. rewrite get_weight_abs.
    rewrite (aeq_weight _ _ id (bin_abs (num_op o) a b Ha Hb)).
    unfold weight_of at 1; simpl.
    rewrite !get_weight_abs. unfold weight_of; simpl.
    destruct (map_find (ctx_map a) id), (map_find (ctx_map b) id); reflexivity.
  Qed.

  Lemma num_weight op (a : Context N) v id :
    get_weight (op_double op a v) id = op (get_weight a id) v.
  Proof.
    rewrite get_weight_abs, (aeq_weight _ _ id (num_abs op a v)).
    rewrite get_weight_abs. unfold weight_of; simpl.
    destruct (map_find (ctx_map a) id); reflexivity.
  Qed.

  Lemma ctx_num_pointwise o (a : Context N) v :
    exists c, operate o (OCtx a) (ONum v) = Some c /\
      (forall id, get_weight c id = num_op o (get_weight a id) v) /\
      get_default_weight c = num_op o (get_default_weight a) v.
  Proof.
    eexists. split; [reflexivity|]. split; [|reflexivity].
    intros id. apply num_weight.
  Qed.

  Lemma num_ctx_pointwise o (a : Context N) v :
    match o with
    | OpAdd | OpMul =>
        exists c, operate o (ONum v) (OCtx a) = Some c /\
          (forall id, get_weight c id = num_op o (get_weight a id) v) /\
          get_default_weight c = num_op o (get_default_weight a) v
    | OpSub | OpDiv => operate o (ONum v) (OCtx a) = None
    end.
  Proof.
    destruct o; simpl; auto.
    - eexists. split; [reflexivity|]. split; [|reflexivity]. intros id. apply num_weight.
    - eexists. split; [reflexivity|]. split; [|reflexivity]. intros id. apply num_weight.
  Qed.

  Lemma not_stored (a : Context N) id :
    get_weight (operate_not a) id =
    match map_find (ctx_map a) id with
    | Some w => if neqb w n0 then get_default_weight a else n0
    | None => n0
    end.
  Proof.
    rewrite get_weight_abs, (aeq_weight _ _ id (not_abs a)).
    unfold weight_of; simpl. destruct (map_find (ctx_map a) id); reflexivity.
  Qed.

  Lemma not_table (p : list (Stmt N)) x c a id :
    read_var (run store_empty p) x = Some c ->
    as_read (a_run as_empty p) x = Some a ->
    get_weight (operate_not c) id =
    match explicit a id with
    | Some w => if neqb w n0 then get_default_weight c else n0
    | None => n0
    end.
  Proof.
    intros Hc Ha.
    pose proof (sim_read _ _ x (sim_run p _ _ sim_empty)) as Hr.
    rewrite Hc, Ha in Hr. destruct Hr as [_ [He _]].
    rewrite not_stored. rewrite <- He. reflexivity.
  Qed.

  Lemma not_values (a : Context N) id :
    get_weight (operate_not a) id = n0 \/
    get_weight (operate_not a) id = get_default_weight a.
  Proof.
    rewrite not_stored. destruct (map_find (ctx_map a) id); auto.
    destruct (neqb n n0); auto.
  Qed.

  Lemma not_not_zero (a : Context N) id :
    neqb (@n0 N) n0 = true ->
    get_weight (operate_not (operate_not a)) id = n0.
  Proof.
    intros Hz. rewrite not_stored.
    destruct (map_find (ctx_map (operate_not a)) id); auto.
    destruct (neqb n n0); auto.
  Qed.

End P.
