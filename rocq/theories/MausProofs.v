(** Proofs for the MAUS formats: groups, trees and documents. *)
From Coq Require Import Reals ZArith Bool String Ascii Lia Lra List Permutation.
From Verif Require Import Num WeightModel HitcoreModel HitcoreSpec HitcoreProofs PyLibModel HitPyModel HitPySpec
  HitPyProofs TableModel IOModel IOSpec IOProofs CommonModel MausModel MausSpec.
Import ListNotations.
Open Scope list_scope.

(** ---- groups ---- *)
Lemma in_firsts k l : In k (firsts l) <-> In k l.
Proof.
  induction l as [|a l IH]; simpl; [tauto|].
  rewrite filter_In, IH. destruct (Z.eqb_spec k a) as [-> | N]; simpl; split; intros H; auto.
  - destruct H as [H|[H _]]; auto.
  - destruct H as [H|H]; auto.
Qed.
Lemma firsts_nodup l : NoDup (firsts l).
Proof.
  induction l as [|a l IH]; simpl; constructor.
  - rewrite filter_In, Z.eqb_refl. simpl. intros [_ H]. discriminate.
  - apply NoDup_filter; auto.
Qed.
Lemma filter_all {A} (p : A -> bool) l : (forall a, In a l -> p a = true) -> filter p l = l.
Proof.
  induction l as [|a l IH]; simpl; intros H; auto.
  rewrite H by auto. rewrite IH; auto.
Qed.
Lemma firsts_snoc l k : firsts (l ++ [k]) = if existsb (Z.eqb k) l then firsts l else firsts l ++ [k].
Proof.
  induction l as [|a l IH]; simpl; auto.
  rewrite IH. destruct (Z.eqb_spec k a) as [-> | N]; simpl.
  - destruct (existsb (Z.eqb a) l) eqn:E; auto.
    rewrite filter_app. cbn. rewrite Z.eqb_refl. simpl. rewrite app_nil_r. reflexivity.
  - destruct (existsb (Z.eqb k) l) eqn:E; auto.
    rewrite filter_app. cbn. destruct (Z.eqb_spec k a); [congruence|]. reflexivity.
Qed.
Lemma existsb_in k l : existsb (Z.eqb k) l = true <-> In k l.
Proof.
  rewrite existsb_exists. split.
  - intros (x & I & E). apply Z.eqb_eq in E. subst. auto.
  - intros I. exists k. rewrite Z.eqb_refl. auto.
Qed.

Section Groups.
Context {A : Type}.
Variable f : A -> Z.

Lemma add_in k a (F : Z -> list A) K : NoDup K -> In k K ->
  add_to_group k a (map (fun k => (k, F k)) K) =
  map (fun k' => (k', if Z.eqb k k' then F k' ++ [a] else F k')) K.
Proof.
  induction K as [|k0 K IH]; simpl; [tauto|]. intros N I. inversion N; subst.
  destruct (Z.eqb_spec k0 k) as [-> | D].
  - rewrite Z.eqb_refl. f_equal. apply map_ext_in. intros k' I'.
    destruct (Z.eqb_spec k k'); subst; tauto.
  - destruct (Z.eqb_spec k k0); [congruence|]. f_equal. apply IH; auto. destruct I; congruence.
Qed.
Lemma add_notin k a (F : Z -> list A) K : ~ In k K ->
  add_to_group k a (map (fun k => (k, F k)) K) = map (fun k => (k, F k)) K ++ [(k, [a])].
Proof.
  induction K as [|k0 K IH]; simpl; intros N; auto.
  destruct (Z.eqb_spec k0 k); [subst; tauto|]. f_equal. apply IH. tauto.
Qed.
Lemma with_key_none k l : ~ In k (map f l) -> with_key f k l = [].
Proof.
  unfold with_key. induction l as [|a l IH]; simpl; intros N; auto.
  destruct (Z.eqb_spec (f a) k); [tauto|]. apply IH. tauto.
Qed.

Lemma group_fold l :
  fold_left (fun d a => add_to_group (f a) a d) l [] =
  map (fun k => (k, with_key f k l)) (firsts (map f l)).
Proof.
  induction l as [|a l IH] using rev_ind; auto.
  rewrite fold_left_app, IH. cbn [fold_left]. rewrite map_app. cbn [map].
  rewrite firsts_snoc.
  assert (K : forall k, with_key f k (l ++ [a]) = if Z.eqb (f a) k then with_key f k l ++ [a] else with_key f k l).
  { intros k. unfold with_key. rewrite filter_app. cbn. destruct (Z.eqb (f a) k); auto. apply app_nil_r. }
  destruct (existsb (Z.eqb (f a)) (map f l)) eqn:E.
  - apply existsb_in in E. rewrite add_in; [|apply firsts_nodup|apply in_firsts; auto].
    apply map_ext. intros k. rewrite K. reflexivity.
  - assert (N : ~ In (f a) (map f l)) by (rewrite <- existsb_in, E; discriminate).
    rewrite add_notin by (rewrite in_firsts; auto).
    rewrite map_app. cbn [map]. f_equal.
    + apply map_ext_in. intros k I. rewrite K. destruct (Z.eqb_spec (f a) k); auto.
      subst. apply (proj1 (in_firsts _ _)) in I. tauto.
    + rewrite K, Z.eqb_refl, with_key_none by auto. reflexivity.
Qed.

Lemma perm_split_key k l : Permutation (with_key f k l ++ filter (fun a => negb (Z.eqb (f a) k)) l) l.
Proof.
  unfold with_key. induction l as [|a l IH]; simpl; auto.
  destruct (Z.eqb (f a) k); simpl; auto.
  rewrite <- Permutation_middle. auto.
Qed.
Lemma with_key_filter k k' l : k <> k' ->
  with_key f k (filter (fun a => negb (Z.eqb (f a) k')) l) = with_key f k l.
Proof.
  intros N. unfold with_key. induction l as [|a l IH]; simpl; auto.
  destruct (Z.eqb_spec (f a) k'); simpl.
  - destruct (Z.eqb_spec (f a) k); [congruence|auto].
  - destruct (Z.eqb (f a) k); congruence.
Qed.
Lemma perm_keys K : NoDup K -> forall l, (forall a, In a l -> In (f a) K) ->
  Permutation (concat (map (fun k => with_key f k l) K)) l.
Proof.
  induction K as [|k K IH]; intros N l H.
  - destruct l as [|a l]; auto. destruct (H a); simpl; auto.
  - inversion N; subst. cbn [map concat].
    eapply Permutation_trans; [|apply (perm_split_key k l)].
    apply Permutation_app_head.
    rewrite <- (IH H3 (filter (fun a => negb (Z.eqb (f a) k)) l)).
    + replace (map (fun k0 => with_key f k0 l) K)
        with (map (fun k0 => with_key f k0 (filter (fun a => negb (Z.eqb (f a) k)) l)) K); auto.
      apply map_ext_in. intros k' I. apply with_key_filter. congruence.
    + intros a I. apply filter_In in I. destruct I as [I E].
      destruct (H a I) as [Ek |]; auto. cbn beta in E. rewrite <- Ek, Z.eqb_refl in E. discriminate.
Qed.
Lemma groups_perm l : Permutation (concat (groups f l)) l.
Proof.
  unfold groups. apply perm_keys; [apply firsts_nodup|].
  intros a I. apply in_firsts. apply in_map; auto.
Qed.
Lemma groups_nonempty l g : In g (groups f l) -> g <> [].
Proof.
  unfold groups. intros I. apply in_map_iff in I. destruct I as (k & <- & I).
  apply in_firsts, in_map_iff in I. destruct I as (a & E & I).
  intros Z. assert (H : In a (with_key f k l)) by (unfold with_key; apply filter_In; split; auto; apply Z.eqb_eq; auto).
  rewrite Z in H. destruct H.
Qed.
Lemma groups_key l g : In g (groups f l) -> forall a b, In a g -> In b g -> f a = f b.
Proof.
  unfold groups, with_key. intros I. apply in_map_iff in I. destruct I as (k & <- & I).
  intros a b Ia Ib. apply filter_In in Ia, Ib. destruct Ia as [_ Ea], Ib as [_ Eb].
  apply Z.eqb_eq in Ea, Eb. congruence.
Qed.
Lemma groups_in l a : In a l -> exists g, In g (groups f l) /\ g = with_key f (f a) l.
Proof.
  intros I. exists (with_key f (f a) l). split; auto. unfold groups.
  apply in_map_iff. exists (f a). split; auto. apply in_firsts, in_map. auto.
Qed.
End Groups.

Lemma split_groups {A} (attr : string -> A -> Z) l k :
  split_list_by_equality attr l k = groups (attr k) l.
Proof.
  unfold split_list_by_equality, groups. rewrite group_fold, map_map. reflexivity.
Qed.

(** ---- trees ---- *)
Section Trees.
Context {A : Type}.
Variable attr : string -> A -> Z.

Lemma clash_filter ks (p : A -> bool) l : clash attr ks (filter p l) -> clash attr ks l.
Proof.
  induction l as [|a l IH]; simpl; auto. destruct (p a); simpl.
  - intros [(b & I & H)|H]; auto. left. exists b. split; auto. apply filter_In in I. tauto.
  - auto.
Qed.
Lemma clash_more ks k l : (forall a b, In a l -> In b l -> attr k a = attr k b) ->
  clash attr ks l -> clash attr (k :: ks) l.
Proof.
  induction l as [|a l IH]; simpl; auto. intros E [(b & I & H)|H].
  - left. exists b. split; [exact I|]. intros k' [<- | I']; auto.
  - right. apply IH; auto.
Qed.
Lemma clash_fewer ks k l : clash attr (k :: ks) l -> clash attr ks l.
Proof.
  induction l as [|a l IH]; simpl; auto. intros [(b & I & H)|H]; auto.
  left. exists b. split; [exact I|]. intros k' I'. apply H. simpl. auto.
Qed.
Lemma clash_key ks k l : clash attr (k :: ks) l ->
  exists a, In a l /\ clash attr ks (with_key (attr k) (attr k a) l).
Proof.
  induction l as [|a l IH]; simpl; [tauto|]. intros [(b & I & H)|H].
  - exists a. split; auto. unfold with_key. simpl. rewrite Z.eqb_refl. simpl.
    left. exists b. split.
    + apply filter_In. split; auto. apply Z.eqb_eq. symmetry. apply H. simpl. auto.
    + intros k' I'. apply H. simpl. auto.
  - destruct (IH H) as (b & I & C). exists b. split; auto. unfold with_key in *. simpl.
    destruct (Z.eqb (attr k a) (attr k b)); simpl; auto.
Qed.
Lemma clash_groups ks k l : clash attr (k :: ks) l <-> exists g, In g (groups (attr k) l) /\ clash attr ks g.
Proof.
  split.
  - intros H. destruct (clash_key ks k l H) as (a & I & C).
    destruct (groups_in (attr k) l a I) as (g & G & E). exists g. subst. auto.
  - intros (g & G & C).
    pose proof (groups_key (attr k) l g G) as E.
    apply clash_more with (k := k) in C; auto.
    unfold groups in G. apply in_map_iff in G. destruct G as (k' & <- & _).
    eapply clash_filter; eauto.
Qed.

Variable dict : A -> Json.

Definition good (path : list PathElem) (hits : list A) : Prop :=
  (ends_in_key path = true /\ clash attr (splits path) hits /\ maus_tree attr dict path hits = inl MIO) \/
  (~ (ends_in_key path = true /\ clash attr (splits path) hits) /\
   exists t, maus_tree attr dict path hits = inr t /\ Permutation (leaves path t) (map dict hits)).

Lemma all_or_cases r gs : (forall g, In g gs -> good r g) ->
  ((exists g, In g gs /\ ends_in_key r = true /\ clash attr (splits r) g) /\
    all_or (map (maus_tree attr dict r) gs) = inl MIO) \/
  (~ (exists g, In g gs /\ ends_in_key r = true /\ clash attr (splits r) g) /\
   exists ts, all_or (map (maus_tree attr dict r) gs) = inr ts /\
     Permutation (flat_map (leaves r) ts) (map dict (concat gs))).
Proof.
  induction gs as [|g gs IH]; intros H.
  - right. split; [intros (g & [] & _)|]. exists []. split; auto.
  - destruct (H g (or_introl eq_refl)) as [(E & C & T)|(N & t & T & P)].
    + left. split; [exists g; simpl; auto|]. cbn [map all_or]. rewrite T. reflexivity.
    + destruct IH as [((g' & I & C) & E)|(N' & ts & E & P')]; [intros; apply H; simpl; auto| |].
      * left. split; [exists g'; simpl; auto|]. cbn [map all_or]. rewrite T, E. reflexivity.
      * right. split.
        { intros (g' & [<- | I] & C); [apply N; auto|apply N'; eauto]. }
        exists (t :: ts). cbn [map all_or concat flat_map]. rewrite T, E. split; auto.
        rewrite map_app. apply Permutation_app; auto.
Qed.

Lemma maus_tree_good path : path <> [] -> forall hits, hits <> [] -> good path hits.
Proof.
  induction path as [|e path IH]; [congruence|]. intros _ hits NH.
  destruct path as [|e' path'].
  - destruct e as [k|k].
    + destruct hits as [|h [|h' hs]]; [congruence| |].
      * right. split; [intros (_ & [(b & [] & _)|[]])|].
        eexists. split; [reflexivity|]. cbn. rewrite String.eqb_refl. cbn. auto.
      * left. split; auto. split; auto. simpl. left. exists h'. split; auto. tauto.
    + right. split; [intros [C _]; discriminate|].
      eexists. split; [reflexivity|]. cbn. clear. induction hits; simpl; auto.
  - assert (NP : e' :: path' <> []) by discriminate. specialize (IH NP).
    set (r := e' :: path') in *.
    assert (EK : forall e, ends_in_key (e :: r) = ends_in_key r) by (intros []; reflexivity).
    destruct e as [k|k].
    + assert (T : maus_tree attr dict (PKey k :: r) hits =
        match maus_tree attr dict r hits with inl e => inl e | inr t => inr (JDict [(k, t)]) end) by reflexivity.
      unfold good. rewrite EK, T. change (splits (PKey k :: r)) with (splits r).
      destruct (IH hits NH) as [(E & C & T')|(N & t & T' & P)]; rewrite T'.
      * left. auto.
      * right. split; auto. eexists. split; [reflexivity|].
        cbn. rewrite String.eqb_refl. exact P.
    + assert (T : maus_tree attr dict (PSplit k :: r) hits =
        match all_or (map (maus_tree attr dict r) (split_list_by_equality attr hits k)) with
        | inl e => inl e | inr l => inr (JList l) end) by reflexivity.
      unfold good. rewrite EK, T. change (splits (PSplit k :: r)) with (k :: splits r).
      rewrite split_groups.
      destruct (all_or_cases r (groups (attr k) hits)) as [((g & G & E & C) & T')|(N & ts & T' & P)].
      * intros g G. apply IH. apply groups_nonempty in G; auto.
      * rewrite T'. left. split; auto. split; auto. apply clash_groups. eauto.
      * rewrite T'. right. split.
        { intros (E & C). apply clash_groups in C. destruct C as (g & G & C). apply N. eauto. }
        eexists. split; [reflexivity|]. cbn [leaves]. rewrite P.
        apply Permutation_map. apply groups_perm.
Qed.

Lemma maus_tree_split_nil k r : r <> [] -> maus_tree attr dict (PSplit k :: r) [] = inr (JList []).
Proof. destruct r; [congruence|]. reflexivity. Qed.
End Trees.

(** ---- documents ---- *)
Lemma all_or_map_inr {B C} (f : B -> MErr + C) (g : B -> C) l :
  (forall b, In b l -> f b = inr (g b)) -> all_or (map f l) = inr (map g l).
Proof.
  induction l as [|b l IH]; simpl; intros H; auto. rewrite H by auto. rewrite IH; auto.
Qed.

Lemma number_spills_map {B} (f : B -> list (string * Json)) l : forall n,
  number_spills n (map (fun b => JDict (f b)) l) =
  inr (map (fun e => JDict (jset (jset (f (snd e)) "maus_event_type" (JStr "Spill"))
                                 "spill_number" (JNum (PInt (Z.of_nat (fst e)))))) (number n l)).
Proof.
  induction l as [|b l IH]; intros n; auto. cbn [map number_spills number fst snd]. rewrite IH. reflexivity.
Qed.

Lemma int_event (c : RCtx) : int_attr c "event_number" = event_of.
Proof. reflexivity. Qed.
Lemma int_particle (c : RCtx) : int_attr c "particle_number" = particle_of.
Proof. reflexivity. Qed.

Lemma write_virtual (c : RCtx) hits :
  write_maus c "maus_json_virtual_hit" hits = inr (virtual_spills hits).
Proof.
  unfold write_maus, get_maus_tree. cbn [assoc maus_paths three_vecs variables fst snd String.eqb Ascii.eqb Bool.eqb].
  cbn [maus_tree]. rewrite split_groups, int_event.
  rewrite (all_or_map_inr _ (fun ev => JDict [("mc_events"%string,
             JList (map (fun g => JDict [("virtual_hits"%string, JList (map virtual_object g))])
                        (groups particle_of ev)))])).
  - rewrite number_spills_map. f_equal.
  - intros ev I. rewrite split_groups, int_particle.
    rewrite (all_or_map_inr _ (fun g => JDict [("virtual_hits"%string, JList (map virtual_object g))])); auto.
Qed.

Lemma no_clash_single {A} (attr : string -> A -> Z) l : ~ clash attr [] l -> (List.length l <= 1)%nat.
Proof.
  destruct l as [|a [|b l]]; simpl; auto. intros N. destruct N. left. exists b. split; auto. tauto.
Qed.

Lemma groups_single {A} (f : A -> Z) l : NoDup (map f l) -> groups f l = map (fun a => [a]) l.
Proof.
  unfold groups. intros N.
  assert (F : forall l, NoDup l -> firsts l = l).
  { clear. induction l as [|a l IH]; intros N; auto. inversion N; subst. simpl. rewrite IH by auto.
    f_equal. apply filter_all. intros b I. destruct (Z.eqb_spec b a); auto. subst. tauto. }
  rewrite F by auto. rewrite map_map.
  induction l as [|a l IH]; auto. cbn [map] in N |- *. inversion N as [|x xs NI N']; subst. f_equal.
  - unfold with_key. cbn [filter]. rewrite Z.eqb_refl. f_equal. apply (with_key_none f _ _ NI).
  - rewrite <- IH by auto. apply map_ext_in. intros b I. unfold with_key. cbn [filter].
    destruct (Z.eqb_spec (f a) (f b)) as [E|]; auto.
    destruct NI. rewrite E. apply in_map. auto.
Qed.
Lemma no_clash_nodup {A} (attr : string -> A -> Z) k l : ~ clash attr [k] l <-> NoDup (map (attr k) l).
Proof.
  induction l as [|a l IH]; simpl.
  - split; [constructor|tauto].
  - split.
    + intros H. constructor; [|tauto]. rewrite in_map_iff. intros (b & E & I). apply H. left.
      exists b. split; auto. intros k' [<- | []]. auto.
    + intros N. inversion N; subst. intros [(b & I & H)|H]; [|tauto].
      destruct H1. rewrite (H k) by (simpl; auto). apply in_map. auto.
Qed.

Lemma write_primary (c : RCtx) hits : ~ clash (int_attr c) ["event_number"; "particle_number"]%string hits ->
  write_maus c "maus_json_primary" hits = inr (primary_spills hits).
Proof.
  intros N.
  unfold write_maus, get_maus_tree. cbn [assoc maus_paths three_vecs variables fst snd String.eqb Ascii.eqb Bool.eqb].
  cbn [maus_tree]. rewrite split_groups.
  rewrite (all_or_map_inr _ (fun ev => JDict [("mc_events"%string,
             JList (map (fun h => JDict [("primary"%string, primary_object h)]) ev))])).
  - rewrite number_spills_map. f_equal.
  - intros ev I. rewrite split_groups.
    rewrite clash_groups in N.
    assert (D : NoDup (map (int_attr c "particle_number") ev)).
    { apply no_clash_nodup. intros C. apply N. eauto. }
    rewrite groups_single by auto. rewrite map_map.
    rewrite (all_or_map_inr _ (fun h => JDict [("primary"%string, primary_object h)])); auto.
Qed.
Lemma write_primary_io (c : RCtx) hits : clash (int_attr c) ["event_number"; "particle_number"]%string hits ->
  write_maus c "maus_json_primary" hits = inl MIO.
Proof.
  intros C. unfold write_maus, get_maus_tree.
  set (f := fmt_cols). clear f.
  change (assoc maus_paths "maus_json_primary")
    with (Some [PKey "mc_events"; PSplit "particle_number"; PKey "primary"]%string).
  change (assoc three_vecs "maus_json_primary") with (Some [("position", ""); ("momentum", "p")]%string).
  change (assoc variables "maus_json_primary") with (Some [("particle_id", "pid"); ("time", "t"); ("energy", "energy")]%string).
  cbv beta iota.
  destruct (maus_tree_good (int_attr c) (maus_dict c [("position", ""); ("momentum", "p")]%string
      [("particle_id", "pid"); ("time", "t"); ("energy", "energy")]%string)
     [PSplit "event_number"; PKey "mc_events"; PSplit "particle_number"; PKey "primary"]%string ltac:(discriminate) hits)
    as [(_ & _ & E)|(N & _)].
  - destruct hits; [destruct C|discriminate].
  - rewrite E. reflexivity.
  - destruct N. split; auto.
Qed.
