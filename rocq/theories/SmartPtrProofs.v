From Coq Require Import List Bool Arith Lia.
From Verif Require Import SmartPtrModel SmartPtrSpec.
Import ListNotations.

Definition pts (a : Addr) (hp : Handle * option Addr) : bool :=
  match snd hp with Some b => Nat.eqb b a | None => false end.

Lemma holders_eq s a : holders s a = length (filter (pts a) (sp_handles s)).
Proof. reflexivity. Qed.

Definition NoDupKeys {A} (m : list (nat * A)) : Prop := NoDup (map fst m).

Lemma find_none_notin {A} (m : list (nat * A)) k :
  al_find m k = None -> ~ In k (map fst m).
Proof.
  induction m as [|[k' v] m IH]; simpl; auto.
  destruct (Nat.eqb_spec k' k); [discriminate|]. intros H [E|E]; auto. exact (IH H E).
Qed.

Lemma find_put {A} (m : list (nat * A)) k v k' :
  al_find (al_put m k v) k' = if Nat.eqb k k' then Some v else al_find m k'.
Proof.
  unfold al_put; simpl. destruct (Nat.eqb_spec k k'); auto.
  unfold al_remove. induction m as [|[j w] m IH]; simpl; auto.
  destruct (Nat.eqb_spec j k); simpl.
  - subst. rewrite IH. destruct (Nat.eqb_spec k k'); congruence.
  - rewrite IH. reflexivity.
Qed.

Lemma find_remove {A} (m : list (nat * A)) k k' :
  al_find (al_remove m k) k' = if Nat.eqb k k' then None else al_find m k'.
Proof.
  unfold al_remove. induction m as [|[j w] m IH]; simpl.
  - destruct (Nat.eqb k k'); auto.
  - destruct (Nat.eqb_spec j k); simpl.
    + subst. rewrite IH. destruct (Nat.eqb_spec k k'); auto.
    + rewrite IH. destruct (Nat.eqb_spec j k'); auto. subst.
      destruct (Nat.eqb_spec k k'); auto. congruence.
Qed.

Lemma remove_keys_notin {A} (m : list (nat * A)) k : ~ In k (map fst (al_remove m k)).
Proof.
  unfold al_remove. induction m as [|[j w] m IH]; simpl; auto.
  destruct (Nat.eqb_spec j k); simpl; auto. intros [E|E]; auto.
Qed.

Lemma remove_keys_incl {A} (m : list (nat * A)) k j :
  In j (map fst (al_remove m k)) -> In j (map fst m).
Proof.
  unfold al_remove. induction m as [|[i w] m IH]; simpl; auto.
  destruct (Nat.eqb_spec i k); simpl; intuition.
Qed.

Lemma remove_nodup {A} (m : list (nat * A)) k : NoDupKeys m -> NoDupKeys (al_remove m k).
Proof.
  unfold NoDupKeys. induction m as [|[j w] m IH]; simpl; auto.
  intros H. inversion H; subst. unfold al_remove; simpl.
  destruct (Nat.eqb_spec j k); simpl; [apply IH; auto|].
  constructor; [|apply IH; auto]. intros Hin. apply remove_keys_incl in Hin. auto.
Qed.

Lemma put_nodup {A} (m : list (nat * A)) k v : NoDupKeys m -> NoDupKeys (al_put m k v).
Proof.
  intros H. unfold NoDupKeys, al_put; simpl. constructor.
  - apply remove_keys_notin.
  - apply remove_nodup, H.
Qed.

Lemma remove_absent {A} (m : list (nat * A)) k : ~ In k (map fst m) -> al_remove m k = m.
Proof.
  unfold al_remove. induction m as [|[j w] m IH]; simpl; auto.
  intros H. destruct (Nat.eqb_spec j k); simpl; [tauto|]. f_equal. auto.
Qed.

(** Counting handles when one is removed. *)
Lemma count_remove (m : list (nat * option Addr)) h p a :
  NoDupKeys m -> al_find m h = Some p ->
  length (filter (pts a) m) =
  (if pts a (h, p) then 1 else 0) + length (filter (pts a) (al_remove m h)).
Proof.
  unfold NoDupKeys. induction m as [|[j w] m IH]; simpl; [discriminate|].
  intros H Hf. inversion H; subst.
  destruct (Nat.eqb_spec j h).
  - inversion Hf; subst. unfold al_remove; simpl.
    fold (al_remove m h). rewrite remove_absent by auto.
    destruct (pts a (h, p)); simpl; lia.
  - unfold al_remove; simpl. destruct (Nat.eqb_spec j h); [congruence|]. simpl.
    fold (al_remove m h). rewrite Hf in IH. specialize (IH H3 eq_refl).
    destruct (pts a (j, w)); simpl; lia.
Qed.

Lemma find_in {A} (m : list (nat * A)) k v : al_find m k = Some v -> In (k, v) m.
Proof.
  induction m as [|[j w] m IH]; simpl; [discriminate|].
  destruct (Nat.eqb_spec j k); auto. intros H. inversion H; subst. auto.
Qed.

Lemma in_addr_spec l a : in_addr l a = true <-> In a l.
Proof.
  unfold in_addr. rewrite existsb_exists. split.
  - intros (x & H & E). apply Nat.eqb_eq in E. subst. auto.
  - intros H. exists a. split; auto. apply Nat.eqb_refl.
Qed.

Lemma in_addr_remove l a b :
  in_addr (filter (fun c => negb (Nat.eqb c a)) l) b =
  (negb (Nat.eqb b a) && in_addr l b)%bool.
Proof.
  unfold in_addr. induction l as [|c l IH]; simpl.
  - rewrite andb_false_r. auto.
  - destruct (Nat.eqb_spec c a); simpl; rewrite IH.
    + subst. destruct (Nat.eqb_spec b a); simpl; auto.
    + destruct (Nat.eqb_spec b c); simpl; auto. subst.
      destruct (Nat.eqb_spec c a); simpl; auto. congruence.
Qed.

Arguments al_put : simpl never.
Arguments al_find : simpl never.
Arguments al_remove : simpl never.

(** The counts and objects agree with a given number of holders per address. *)
Record consistent (s : SpState) (cnt : Addr -> nat) : Prop := {
  c_fault : sp_fault s = false;
  c_refs : forall a, al_find (sp_refs s) a = match cnt a with 0 => None | n => Some n end;
  c_alive : forall a, in_addr (sp_alive s) a = negb (Nat.eqb (cnt a) 0);
}.

Definition bump (p : option Addr) (a : Addr) : nat :=
  match p with Some b => if Nat.eqb b a then 1 else 0 | None => 0 end.

Lemma bump_pts p a h : bump p a = if pts a (h, p) then 1 else 0.
Proof. destruct p; reflexivity. Qed.

Lemma decref_handles s p : sp_handles (decref s p) = sp_handles s.
Proof.
  destruct p as [a|]; simpl; auto. destruct (al_find (sp_refs s) a); auto.
  destruct (Nat.eqb (pred n) 0); simpl; auto.
  unfold cxx_delete; simpl. destruct (in_addr (sp_alive s) a); auto.
Qed.

Lemma incref_handles s p : sp_handles (incref s p) = sp_handles s.
Proof. destruct p as [a|]; simpl; auto. destruct (al_find (sp_refs s) a); auto. Qed.

Lemma decref_consistent s p cnt :
  consistent s (fun a => bump p a + cnt a) -> consistent (decref s p) cnt.
Proof.
  intros [Hf Hr Ha]. destruct p as [b|]; simpl in *.
  2:{ constructor; auto. }
  pose proof (Hr b) as Hb. simpl in Hb. rewrite Nat.eqb_refl in Hb. simpl in Hb.
  rewrite Hb. simpl.
  destruct (Nat.eqb_spec (cnt b) 0) as [E0|E0]; simpl.
  - unfold cxx_delete; simpl.
    pose proof (Ha b) as Hab. rewrite Nat.eqb_refl in Hab. simpl in Hab. rewrite Hab.
    constructor; simpl; auto.
    + intros a. rewrite find_remove, find_put. destruct (Nat.eqb_spec b a).
      * subst. rewrite E0. reflexivity.
      * rewrite Hr. destruct (Nat.eqb_spec b a); [congruence|]. reflexivity.
    + intros a. rewrite in_addr_remove, Ha.
      destruct (Nat.eqb_spec a b); simpl.
      * subst. rewrite E0. reflexivity.
      * destruct (Nat.eqb_spec b a); [congruence|]. reflexivity.
  - constructor; simpl; auto.
    + intros a. rewrite find_put. destruct (Nat.eqb_spec b a).
      * subst. destruct (cnt a); [congruence|]. reflexivity.
      * rewrite Hr. destruct (Nat.eqb_spec b a); [congruence|]. reflexivity.
    + intros a. rewrite Ha. destruct (Nat.eqb_spec b a); simpl; auto. subst.
      destruct (cnt a); [congruence|]. reflexivity.
Qed.

(** The state just before incref of [p]: the object exists but its count may be 0. *)
Lemma incref_consistent s p cnt :
  sp_fault s = false ->
  (forall a, al_find (sp_refs s) a = match cnt a with 0 => None | n => Some n end) ->
  (forall a, in_addr (sp_alive s) a = negb (Nat.eqb (bump p a + cnt a) 0)) ->
  consistent (incref s p) (fun a => bump p a + cnt a).
Proof.
  intros Hf Hr Ha. destruct p as [b|]; simpl in *.
  2:{ constructor; auto. }
  rewrite Hr. destruct (cnt b) eqn:E; constructor; simpl; auto; intros a;
    rewrite find_put; destruct (Nat.eqb_spec b a); simpl; auto; subst; rewrite E; auto.
Qed.

(** Invariant. *)
Record Inv (s : SpState) : Prop := {
  inv_keys : NoDupKeys (sp_handles s);
  inv_cons : consistent s (holders s)
}.

Lemma inv_init : Inv sp_init.
Proof.
  split; [constructor|]. constructor; simpl; auto.
Qed.

(** [sp_set] on a state whose handle [h] holds [old], where the new target is either
    held by some handle or freshly allocated. *)
Lemma sp_set_inv s h old new :
  NoDupKeys (sp_handles s) ->
  al_find (sp_handles s) h = Some old ->
  sp_fault s = false ->
  (forall a, al_find (sp_refs s) a = match holders s a with 0 => None | n => Some n end) ->
  (forall a, in_addr (sp_alive s) a = negb (Nat.eqb (bump new a + holders s a) 0)) ->
  (opt_addr_eqb new old = true -> consistent s (holders s)) ->
  Inv (sp_set s h old new).
Proof.
  intros Hk Hh Hf Hr Ha Hsame. unfold sp_set.
  destruct (opt_addr_eqb new old) eqn:Eq.
  { split; auto. }
  set (cnt := fun a => length (filter (pts a) (al_remove (sp_handles s) h))).
  assert (Hcnt : forall a, holders s a = bump old a + cnt a).
  { intros a. rewrite holders_eq, (count_remove _ h old a Hk Hh), (bump_pts old a h).
    reflexivity. }
  (* decref on the old pointer, without yet counting the new one *)
  assert (Hd : sp_fault (decref s old) = false /\
    (forall a, al_find (sp_refs (decref s old)) a =
               match cnt a with 0 => None | n => Some n end) /\
    (forall a, in_addr (sp_alive (decref s old)) a =
               negb (Nat.eqb (bump new a + cnt a) 0))).
  { destruct old as [b|]; simpl.
    - pose proof (Hr b) as Hb. rewrite Hcnt in Hb. simpl in Hb.
      rewrite Nat.eqb_refl in Hb. simpl in Hb. rewrite Hb. simpl.
      assert (Hnb : bump new b = 0).
      { destruct new as [c|]; simpl in *; auto. rewrite Eq. reflexivity. }
      destruct (Nat.eqb_spec (cnt b) 0) as [E0|E0]; simpl.
      + unfold cxx_delete; simpl.
        pose proof (Ha b) as Hab. rewrite Hcnt in Hab. simpl in Hab.
        rewrite Nat.eqb_refl in Hab. rewrite Hnb in Hab. simpl in Hab. rewrite Hab.
        simpl. split; [auto|split].
        * intros a. rewrite find_remove, find_put. destruct (Nat.eqb_spec b a).
          -- subst. rewrite E0. reflexivity.
          -- rewrite Hr, Hcnt. simpl. destruct (Nat.eqb_spec b a); [congruence|]. reflexivity.
        * intros a. rewrite in_addr_remove, Ha, Hcnt. simpl.
          destruct (Nat.eqb_spec a b); simpl.
          -- subst. rewrite E0, Hnb. reflexivity.
          -- destruct (Nat.eqb_spec b a); [congruence|]. reflexivity.
      + split; [auto|split].
        * intros a. rewrite find_put. destruct (Nat.eqb_spec b a).
          -- subst. destruct (cnt a); [congruence|]. reflexivity.
          -- rewrite Hr, Hcnt. simpl. destruct (Nat.eqb_spec b a); [congruence|]. reflexivity.
        * intros a. rewrite Ha, Hcnt. simpl. destruct (Nat.eqb_spec b a); simpl; auto.
          subst. rewrite Hnb. destruct (cnt a); [congruence|]. reflexivity.
    - split; [auto|split]; intros a; [rewrite Hr|rewrite Ha]; rewrite Hcnt; reflexivity. }
  destruct Hd as (Hd1 & Hd2 & Hd3).
  split.
  - rewrite incref_handles. simpl. rewrite decref_handles. apply put_nodup, Hk.
  - set (s2 := mkSp _ _ _ _).
    assert (Hc : consistent (incref s2 new) (fun a => bump new a + cnt a)).
    { apply incref_consistent; auto. }
    assert (He : forall a, holders (incref s2 new) a = bump new a + cnt a).
    { intros a. rewrite holders_eq, incref_handles. subst s2. simpl.
      rewrite decref_handles. unfold cnt, al_put. simpl.
      destruct new as [c|]; simpl; [|reflexivity].
      unfold pts at 1; simpl. destruct (Nat.eqb c a); reflexivity. }
    destruct Hc as [Hc1 Hc2 Hc3]. constructor; auto; intros a; rewrite He; auto.
Qed.

Lemma holders_add s h a : holders (add_handle s h) a = holders s a.
Proof. reflexivity. Qed.

Lemma holder_pos s h a :
  al_find (sp_handles s) h = Some (Some a) -> holders s a <> 0.
Proof.
  intros H. apply find_in in H. rewrite holders_eq.
  assert (Hin : In (h, Some a) (filter (pts a) (sp_handles s))).
  { apply filter_In. split; auto. unfold pts; simpl. apply Nat.eqb_refl. }
  destruct (filter (pts a) (sp_handles s)); [contradiction|]. simpl. lia.
Qed.

Lemma bump_held s g p a :
  al_find (sp_handles s) g = Some p ->
  negb (Nat.eqb (bump p a + holders s a) 0) = negb (Nat.eqb (holders s a) 0).
Proof.
  intros H. destruct p as [b|]; simpl; auto.
  destruct (Nat.eqb_spec b a); auto. subst.
  pose proof (holder_pos s g a H). destruct (holders s a); [congruence|]. reflexivity.
Qed.

Lemma alloc_holders s a s' : alloc s a = Some s' -> sp_handles s' = sp_handles s /\
  sp_refs s' = sp_refs s /\ sp_fault s' = sp_fault s /\ sp_alive s' = a :: sp_alive s /\
  in_addr (sp_alive s) a = false.
Proof.
  unfold alloc. destruct (in_addr (sp_alive s) a); [discriminate|].
  intros H. inversion H; subst; simpl. auto.
Qed.

Lemma exec_inv s op : Inv s -> Inv (sp_exec s op).
Proof.
  intros HI. pose proof HI as [Hk [Hf Hr Ha]].
  destruct op as [h|h a|h g|h g|h g|h a|h g|h|h]; simpl.
  - destruct (al_find (sp_handles s) h) eqn:E; auto.
    split; simpl.
    + constructor; auto. apply find_none_notin, E.
    + constructor; simpl; auto.
  - destruct (al_find (sp_handles s) h) eqn:E; auto.
    destruct (alloc s a) as [s'|] eqn:Eal; auto.
    apply alloc_holders in Eal. destruct Eal as (Q1 & Q2 & Q3 & Q4 & Q5).
    assert (Hh : forall b, holders s' b = holders s b).
    { intros b. unfold holders. rewrite Q1. reflexivity. }
    apply sp_set_inv; simpl.
    + unfold NoDupKeys. simpl. rewrite Q1. constructor; auto. apply find_none_notin, E.
    + unfold al_find; simpl. rewrite Nat.eqb_refl. reflexivity.
    + congruence.
    + intros b. rewrite Q2, Hr, holders_add, Hh. reflexivity.
    + intros b. rewrite Q4, holders_add, Hh. simpl. fold (in_addr (sp_alive s) b).
      rewrite Ha, (Nat.eqb_sym b a).
      destruct (Nat.eqb a b); reflexivity.
    + discriminate.
  - destruct (al_find (sp_handles s) h) eqn:E; auto.
    destruct (al_find (sp_handles s) g) as [p|] eqn:Eg; auto.
    apply sp_set_inv; simpl; auto.
    + constructor; auto. apply find_none_notin, E.
    + unfold al_find; simpl. rewrite Nat.eqb_refl. reflexivity.
    + intros b. rewrite holders_add, (bump_held s g p b Eg). apply Ha.
    + intros _. constructor; auto.
  - destruct (al_find (sp_handles s) h) as [old|] eqn:E; auto.
    destruct (al_find (sp_handles s) g) as [p|] eqn:Eg; auto.
    apply sp_set_inv; simpl; auto.
    + intros b. rewrite (bump_held s g p b Eg). apply Ha.
    + intros _. constructor; auto.
  - destruct (al_find (sp_handles s) h) eqn:E; auto.
    destruct (al_find (sp_handles s) g) as [p|] eqn:Eg; auto.
    apply sp_set_inv; simpl; auto.
    + constructor; auto. apply find_none_notin, E.
    + unfold al_find; simpl. rewrite Nat.eqb_refl. reflexivity.
    + intros b. rewrite holders_add, (bump_held s g p b Eg). apply Ha.
    + intros _. constructor; auto.
  - destruct (al_find (sp_handles s) h) as [old|] eqn:E; auto.
    destruct (alloc s a) as [s'|] eqn:Eal; auto.
    apply alloc_holders in Eal. destruct Eal as (Q1 & Q2 & Q3 & Q4 & Q5).
    assert (Hh : forall b, holders s' b = holders s b).
    { intros b. unfold holders. rewrite Q1. reflexivity. }
    apply sp_set_inv; simpl.
    + unfold NoDupKeys. rewrite Q1. auto.
    + congruence.
    + congruence.
    + intros b. rewrite Q2, Hr, Hh. reflexivity.
    + intros b. rewrite Q4, Hh. simpl. fold (in_addr (sp_alive s) b).
      rewrite Ha, (Nat.eqb_sym b a).
      destruct (Nat.eqb a b); reflexivity.
    + destruct old as [b|]; simpl; [|discriminate].
      intros Hab. apply Nat.eqb_eq in Hab. subst.
      exfalso. rewrite Ha in Q5. pose proof (holder_pos s h b E).
      destruct (holders s b); [congruence|discriminate].
  - destruct (al_find (sp_handles s) h) as [old|] eqn:E; auto.
    destruct (al_find (sp_handles s) g) as [p|] eqn:Eg; auto.
    apply sp_set_inv; simpl; auto.
    + intros b. rewrite (bump_held s g p b Eg). apply Ha.
    + intros _. constructor; auto.
  - destruct (al_find (sp_handles s) h) as [old|] eqn:E; auto.
    apply sp_set_inv; simpl; auto.
    + intros _. constructor; auto.
  - destruct (al_find (sp_handles s) h) as [p|] eqn:E; auto.
    split; simpl.
    + rewrite decref_handles. apply remove_nodup, Hk.
    + set (cnt := fun a => length (filter (pts a) (al_remove (sp_handles s) h))).
      assert (Hd : consistent (decref s p) cnt).
      { apply decref_consistent.
        assert (He : forall a, holders s a = bump p a + cnt a).
        { intros a. rewrite holders_eq, (count_remove _ h p a Hk E), (bump_pts p a h).
          reflexivity. }
        constructor; auto; intros a; rewrite <- He; auto. }
      destruct Hd as [D1 D2 D3].
      assert (He : forall a, holders
        (mkSp (al_remove (sp_handles (decref s p)) h) (sp_refs (decref s p))
              (sp_alive (decref s p)) (sp_fault (decref s p))) a = cnt a).
      { intros a. rewrite holders_eq. simpl. rewrite decref_handles. reflexivity. }
      constructor; simpl; auto; intros a; rewrite He; auto.
Qed.

Lemma run_inv ops : Inv (sp_run ops).
Proof.
  unfold sp_run.
  assert (H : forall s, Inv s -> Inv (fold_left sp_exec ops s)).
  { induction ops as [|op ops IH]; simpl; auto. intros s Hs. apply IH, exec_inv, Hs. }
  apply H, inv_init.
Qed.

Lemma refcounts_exact ops :
  let s := sp_run ops in
  sp_fault s = false /\
  (forall a, ref_count s a = holders s a) /\
  (forall a, alive s a <-> exists h, points_to s h a).
Proof.
  intros s. destruct (run_inv ops) as [Hk [Hf Hr Ha]].
  fold s in Hk, Hf, Hr, Ha. split; [auto|split].
  - intros a. unfold ref_count. rewrite Hr. destruct (holders s a); reflexivity.
  - intros a. unfold alive, points_to. rewrite <- in_addr_spec, Ha.
    rewrite negb_true_iff, Nat.eqb_neq. rewrite holders_eq. split.
    + intros H. destruct (filter (pts a) (sp_handles s)) as [|[h p] l] eqn:E; [simpl in H; lia|].
      assert (Hin : In (h, p) (filter (pts a) (sp_handles s))) by (rewrite E; left; auto).
      apply filter_In in Hin. destruct Hin as [Hin Hp]. unfold pts in Hp; simpl in Hp.
      destruct p as [b|]; [|discriminate]. apply Nat.eqb_eq in Hp. subst. eauto.
    + intros (h & H) E.
      assert (Hin : In (h, Some a) (filter (pts a) (sp_handles s))).
      { apply filter_In. split; auto. unfold pts; simpl. apply Nat.eqb_refl. }
      destruct (filter (pts a) (sp_handles s)); [contradiction|discriminate].
Qed.

(** Deletion happens in the step that removes the last holder. *)
Lemma deletion_exact ops op a :
  let s := sp_run ops in
  let s' := sp_run (ops ++ [op]) in
  (alive s a /\ ~ alive s' a) <-> (holders s a <> 0 /\ holders s' a = 0).
Proof.
  intros s s'.
  assert (G : forall o, alive (sp_run o) a <-> holders (sp_run o) a <> 0).
  { intros o. destruct (run_inv o) as [_ [_ _ Ha]].
    unfold alive. rewrite <- in_addr_spec, Ha, negb_true_iff, Nat.eqb_neq. tauto. }
  subst s s'. rewrite !G. split; intros [H1 H2]; split; auto; lia.
Qed.
