(** Proofs about grids, shells and process_list. *)
From Coq Require Import Reals ZArith List Bool Lia Lra Permutation Sorted Arith.
From Verif Require Import PyLibModel PyLibProofs HitPyModel HitPySpec HitPyProofs CommonModel CommonSpec
  CommonProofs.
Import ListNotations.
Open Scope list_scope.
Open Scope R_scope.

(** ---- lists ---- *)
Lemma NoDup_app_intro {A} (a b : list A) : NoDup a -> NoDup b -> (forall x, In x a -> ~ In x b) ->
  NoDup (a ++ b).
Proof.
  intros Ha Hb H. induction Ha as [|x a Hx Ha IH]; simpl; auto.
  constructor.
  - intros F. apply in_app_or in F. destruct F as [F|F]; [contradiction|].
    apply (H x); simpl; auto.
  - apply IH. intros y Hy. apply H. simpl. auto.
Qed.

Lemma NoDup_flat_map {A B} (f : A -> list B) l : NoDup l ->
  (forall x, In x l -> NoDup (f x)) ->
  (forall x y b, In x l -> In y l -> In b (f x) -> In b (f y) -> x = y) ->
  NoDup (flat_map f l).
Proof.
  intros Hl. induction Hl as [|x l Hx Hl IH]; intros Hf Hd; simpl; [constructor|].
  apply NoDup_app_intro.
  - apply Hf; simpl; auto.
  - apply IH; [intros; apply Hf; simpl; auto|].
    intros y z b Hy Hz. apply Hd; simpl; auto.
  - intros b Hb F. apply in_flat_map in F. destruct F as (y & Hy & F).
    apply Hx. rewrite (Hd x y b); simpl; auto.
Qed.

Lemma NoDup_map_on {A B} (f : A -> B) l : NoDup l ->
  (forall x y, In x l -> In y l -> f x = f y -> x = y) -> NoDup (map f l).
Proof.
  intros Hl. induction Hl as [|x l Hx Hl IH]; intros H; simpl; [constructor|].
  constructor.
  - intros F. apply in_map_iff in F. destruct F as (y & E & Hy). apply Hx.
    rewrite (H x y); simpl; auto.
  - apply IH. intros. apply H; simpl; auto.
Qed.

Lemma flat_map_length_const {A B} (f : A -> list B) l k :
  (forall x, In x l -> length (f x) = k) -> length (flat_map f l) = (length l * k)%nat.
Proof.
  induction l as [|x l IH]; intros H; simpl; auto.
  rewrite app_length, IH by (intros; apply H; simpl; auto). rewrite H by (simpl; auto). reflexivity.
Qed.

Lemma filter_one {A} (P : A -> bool) l z : NoDup l -> In z l ->
  (forall x, In x l -> P x = false <-> x = z) -> length (filter P l) = (length l - 1)%nat.
Proof.
  intros Hl. induction Hl as [|x l Hx Hl IH]; intros Hz H; [contradiction|]. simpl.
  destruct Hz as [-> | Hz].
  - assert (E : P z = false) by (apply H; simpl; auto). rewrite E.
    assert (F : filter P l = l).
    { clear IH. induction l as [|y l IHl]; auto. simpl.
      destruct (P y) eqn:Ey.
      - f_equal. inversion Hl; subst. apply IHl; auto.
        + intros F. apply Hx. simpl. auto.
        + intros u Hu. apply H. simpl in *. tauto.
      - exfalso. apply Hx. apply H in Ey; [|simpl; auto]. subst. simpl. auto. }
    rewrite F. lia.
  - assert (E : P x = true).
    { destruct (P x) eqn:Ex; auto. apply H in Ex; [|simpl; auto]. subst. contradiction. }
    rewrite E. simpl. rewrite IH; auto.
    + destruct l; [contradiction|]. simpl. lia.
    + intros y Hy. apply H. simpl. auto.
Qed.

(** ---- the grid ---- *)
Lemma grid_pos_0 n : grid_pos n 0 = -1.
Proof. unfold grid_pos. simpl. unfold Rdiv. rewrite Rmult_0_r, Rmult_0_l. lra. Qed.

Lemma INR_pred n : (2 <= n)%nat -> 0 < INR n - 1.
Proof. intros H. apply le_INR in H. simpl in H. lra. Qed.

Lemma grid_pos_inj n i j : (2 <= n)%nat -> grid_pos n i = grid_pos n j -> i = j.
Proof.
  intros Hn. unfold grid_pos. pose proof (INR_pred n Hn) as P. intros E.
  apply INR_eq. assert (F : 2 * INR i / (INR n - 1) = 2 * INR j / (INR n - 1)) by lra.
  apply (Rmult_eq_compat_r (INR n - 1)) in F. unfold Rdiv in F.
  rewrite !Rmult_assoc, Rinv_l, !Rmult_1_r in F by lra. lra.
Qed.

Lemma grid_pos_range n j : (2 <= n)%nat -> (j < n)%nat -> -1 <= grid_pos n j <= 1.
Proof.
  intros Hn Hj. unfold grid_pos. pose proof (INR_pred n Hn) as P.
  assert (0 <= INR j) by apply pos_INR.
  assert (INR j <= INR n - 1).
  { replace n with (S (n - 1)) by lia. rewrite S_INR.
    assert (INR j <= INR (n - 1)) by (apply le_INR; lia). lra. }
  assert (0 <= 2 * INR j / (INR n - 1) <= 2); [|lra]. split.
  - apply Rmult_le_pos; [lra|]. left. apply Rinv_0_lt_compat. auto.
  - apply (Rmult_le_reg_r (INR n - 1)); auto. unfold Rdiv.
    rewrite Rmult_assoc, Rinv_l by lra. lra.
Qed.

Lemma nth_error_set_nth {A} (v : list A) i x k : (i < length v)%nat ->
  nth_error (set_nth v i x) k = if Nat.eqb k i then Some x else nth_error v k.
Proof.
  intros H. destruct (Nat.eqb_spec k i) as [-> | N].
  - apply nth_set_nth_same; auto.
  - apply nth_set_nth_other; auto.
Qed.

(** State of the loop after i dimensions. *)
Definition grid_state (d n i : nat) (v : list R) : Prop :=
  length v = d /\
  (forall k, (k < i)%nat -> exists j, (j < n)%nat /\ nth_error v k = Some (grid_pos n j)) /\
  (forall k, (i <= k < d)%nat -> nth_error v k = Some (-1)).

Lemma grid_step_eq d n i pv : (1 <= n)%nat -> (i < d)%nat -> (forall v, In v pv -> grid_state d n i v) ->
  grid_step n i pv = flat_map (fun j => map (fun v => set_nth v i (grid_pos n j)) pv) (seq 0 n).
Proof.
  intros Hn Hi H. destruct n as [|n]; [lia|]. unfold grid_step.
  replace (S n - 1)%nat with n by lia. cbn [seq flat_map]. f_equal.
  rewrite <- (map_id pv) at 1. apply map_ext_in. intros v Hv.
  destruct (H v Hv) as (L & _ & M). apply list_ext. intros k.
  rewrite nth_error_set_nth by lia. destruct (Nat.eqb_spec k i) as [-> |N]; auto.
  rewrite grid_pos_0. apply M. lia.
Qed.

Lemma grid_step_spec d n i pv : (1 <= n)%nat -> (i < d)%nat -> NoDup pv ->
  (forall v, In v pv <-> grid_state d n i v) ->
  length (grid_step n i pv) = (n * length pv)%nat /\
  ((2 <= n)%nat -> NoDup (grid_step n i pv)) /\
  forall v, In v (grid_step n i pv) <-> grid_state d n (S i) v.
Proof.
  intros Hn Hi Hd H. rewrite (grid_step_eq d) by (auto; intros; apply H; auto). split; [|split].
  - rewrite (flat_map_length_const _ _ (length pv)) by (intros; apply map_length).
    rewrite seq_length. reflexivity.
  - intros H2. apply NoDup_flat_map.
    + apply seq_NoDup.
    + intros j _. apply NoDup_map_on; auto. intros u v Hu Hv E.
      apply H in Hu, Hv. destruct Hu as (Lu & _ & Mu), Hv as (Lv & _ & Mv).
      apply list_ext. intros k. apply (f_equal (fun l => nth_error l k)) in E.
      rewrite !nth_error_set_nth in E by lia.
      destruct (Nat.eqb_spec k i) as [Ek|N]; auto. rewrite Ek, Mu, Mv by lia. reflexivity.
    + intros x y b _ _ Hx Hy. apply in_map_iff in Hx, Hy.
      destruct Hx as (u & <- & Hu), Hy as (v & E & Hv).
      apply (f_equal (fun l => nth_error l i)) in E.
      apply H in Hu, Hv. destruct Hu as (Lu & _), Hv as (Lv & _).
      rewrite !nth_error_set_nth, Nat.eqb_refl in E by lia. injection E as E.
      symmetry. eapply grid_pos_inj; eauto.
  - intros v. rewrite in_flat_map. split.
    + intros (j & Hj & Hv). apply in_map_iff in Hv. destruct Hv as (u & <- & Hu).
      apply H in Hu. destruct Hu as (L & A & B). apply in_seq in Hj. split; [|split].
      * rewrite PyLibProofs.set_nth_length. auto.
      * intros k Hk. rewrite nth_error_set_nth by lia. destruct (Nat.eqb_spec k i) as [-> |N].
        -- exists j. split; auto. lia.
        -- apply A. lia.
      * intros k Hk. rewrite nth_error_set_nth by lia. destruct (Nat.eqb_spec k i); [lia|]. apply B. lia.
    + intros (L & A & B). destruct (A i (Nat.lt_succ_diag_r i)) as (j & Hj & E).
      exists j. split; [apply in_seq; lia|]. apply in_map_iff. exists (set_nth v i (-1)). split.
      * apply list_ext. intros k. rewrite nth_error_set_nth by (rewrite PyLibProofs.set_nth_length; lia).
        rewrite nth_error_set_nth by lia. destruct (Nat.eqb_spec k i) as [-> |N]; auto.
      * apply H. split; [rewrite PyLibProofs.set_nth_length; auto|]. split.
        -- intros k Hk. rewrite nth_error_set_nth by lia. destruct (Nat.eqb_spec k i); [lia|]. apply A. lia.
        -- intros k Hk. rewrite nth_error_set_nth by lia. destruct (Nat.eqb_spec k i); auto. apply B. lia.
Qed.

Lemma grid_loop d n m : (1 <= n)%nat -> (m <= d)%nat ->
  let pv := fold_left (fun pv i => grid_step n i pv) (seq 0 m) [repeat (-1) d] in
  length pv = (n ^ m)%nat /\ ((2 <= n)%nat \/ m = 0%nat -> NoDup pv) /\
  ((2 <= n)%nat -> forall v, In v pv <-> grid_state d n m v).
Proof.
  intros Hn. induction m as [|m IH]; intros Hm; cbn zeta.
  - cbn [seq fold_left]. split; auto. split; [intros _; repeat constructor; auto|].
    intros _ v. unfold grid_state. simpl. split.
    + intros [<-|[]]. split; [apply repeat_length|]. split; [lia|].
      intros k Hk. rewrite (nth_error_nth' _ 0) by (rewrite repeat_length; lia). rewrite nth_indep with (d' := -1) by (rewrite repeat_length; lia).
      rewrite nth_repeat. reflexivity.
    + intros (L & _ & B). left. apply list_ext. intros k.
      destruct (Nat.lt_ge_cases k d) as [Hk|Hk].
      * rewrite B by lia. rewrite (nth_error_nth' _ (-1)) by (rewrite repeat_length; lia).
        rewrite nth_repeat. reflexivity.
      * rewrite (proj2 (nth_error_None v k)), (proj2 (nth_error_None (repeat (-1) d) k)); auto.
        rewrite repeat_length. lia. lia.
  - rewrite seq_S, fold_left_app. cbn [fold_left]. rewrite Nat.add_0_l.
    destruct IH as (L & ND & I); [lia|]. cbn zeta in *.
    set (pv := fold_left (fun pv i => grid_step n i pv) (seq 0 m) [repeat (-1) d]) in *.
    destruct (Nat.le_gt_cases 2 n) as [H2|H2].
    + destruct (grid_step_spec d n m pv) as (L' & ND' & I'); auto.
      split; [|split]; auto. rewrite L', L. reflexivity.
    + assert (n = 1)%nat by lia. subst n. split; [|split]; try lia.
      unfold grid_step. simpl seq. simpl flat_map. rewrite app_nil_r, L.
      rewrite !Nat.pow_1_l. reflexivity.
Qed.

Lemma grid_one d : make_grid d 1 = [repeat (-1) d].
Proof.
  unfold make_grid. generalize (seq 0 d). intros l.
  generalize [repeat (-1) d]. induction l as [|i l IH]; intros pv; simpl; auto.
  rewrite IH. unfold grid_step. simpl. apply app_nil_r.
Qed.

(** ---- forms ---- *)
Lemma qform_form m v d : length v = d -> shape d d m -> qform m v = form m v.
Proof.
  intros L [S1 S2]. unfold qform, form. rewrite L.
  rewrite (dot_sum _ _ d) by (auto; rewrite map_length; auto).
  apply sum_n_ext. intros i Hi.
  rewrite (nth_indep (map (fun row => dot row v) m) 0 (dot [] v)) by (rewrite map_length; lia).
  rewrite (map_nth (fun row => dot row v)). rewrite (dot_sum _ _ d) by (auto; apply S2, nth_In; lia).
  unfold ent. clear. induction d; simpl; [lra|]. rewrite Rmult_plus_distr_l, IHd. ring.
Qed.

Lemma sum_n_scale n f a : sum_n n (fun i => a * f i) = a * sum_n n f.
Proof. induction n; simpl; [lra|]. rewrite IHn. lra. Qed.

Lemma form_scale m v a : form m (map (fun x => x * a) v) = a * a * form m v.
Proof.
  unfold form. rewrite map_length. rewrite <- sum_n_scale. apply sum_n_ext. intros i Hi.
  rewrite <- sum_n_scale. apply sum_n_ext. intros j Hj.
  rewrite !(nth_indep (map _ v) 0 (0 * a)) by (rewrite map_length; auto).
  rewrite !(map_nth (fun x => x * a)). ring.
Qed.

Lemma vadd_minus u m : length u = length m -> minus (vadd u m) m = u.
Proof.
  revert m. induction u as [|x u IH]; intros [|y m] H; try discriminate; auto.
  injection H as H. unfold minus, vadd in *. simpl. f_equal; [lra|]. apply IH. auto.
Qed.

Lemma normalise_spec v minv d : length v = d -> shape d d minv -> 0 < form minv v ->
  exists u, normalise_vector v minv = inr (Some u) /\ form minv u = 1 /\ length u = d /\
    exists a, 0 < a /\ u = map (fun x => x * a) v.
Proof.
  intros L S H. unfold normalise_vector. rewrite (qform_form _ _ d) by auto.
  destruct (rltb (form minv v) 0) eqn:E; [apply rltb_true in E; lra|].
  destruct (Req_EM_T (form minv v) 0) as [Z|Z]; [lra|].
  assert (P : 0 < 1 / sqrt (form minv v)).
  { apply Rmult_lt_0_compat; [lra|]. apply Rinv_0_lt_compat, sqrt_lt_R0. auto. }
  exists (map (fun x => x * (1 / sqrt (form minv v))) v). split; auto. split; [|split].
  - rewrite form_scale. unfold Rdiv. rewrite !Rmult_1_l, <- Rinv_mult.
    rewrite sqrt_sqrt by lra. field. lra.
  - rewrite map_length. auto.
  - eauto.
Qed.

(** Loop of make_shell. *)
Lemma shell_spec minv mean d : shape d d minv -> length mean = d ->
  (forall v, length v = d -> (exists i, nth i v 0 <> 0) -> 0 < form minv v) ->
  forall grid, (forall v, In v grid -> length v = d) ->
  exists pts, shell_loop minv mean grid = inr (map Some pts) /\
    length pts = length (filter (fun v => rltb float_tolerance (dot v v)) grid) /\
    (forall p, In p pts -> length p = d /\ form minv (minus p mean) = 1) /\
    (forall p, In p pts -> exists v a, In v grid /\ 0 < a /\ minus p mean = map (fun x => x * a) v).
Proof.
  intros S Lm PD. induction grid as [|v r IH]; intros L.
  - exists []. simpl. repeat split; auto; contradiction.
  - destruct IH as (pts & E & C & O & G); [intros; apply L; simpl; auto|]. cbn [shell_loop filter].
    assert (G' : forall p, In p pts -> exists u a, In u (v :: r) /\ 0 < a /\ minus p mean = map (fun x => x * a) u).
    { intros p Hp. destruct (G p Hp) as (u & a & H1 & H2). exists u, a. simpl. auto. }
    destruct (rltb float_tolerance (dot v v)) eqn:T.
    + apply rltb_true in T. unfold float_tolerance in T.
      assert (Lv : length v = d) by (apply L; simpl; auto).
      assert (NZ : exists i, nth i v 0 <> 0).
      { rewrite (dot_sum _ _ d) in T by auto.
        assert (D : (exists i, (i < d)%nat /\ nth i v 0 <> 0) \/ (forall i, (i < d)%nat -> nth i v 0 = 0)).
        { clear. induction d as [|d IH]; [right; lia|].
          destruct IH as [(i & A & B)|B]; [left; exists i; split; auto; lia|].
          destruct (Req_EM_T (nth d v 0) 0); [|left; exists d; split; auto; lia].
          right. intros i Hi. destruct (Nat.eq_dec i d); [subst; auto|apply B; lia]. }
        destruct D as [(i & _ & D)|D]; eauto. exfalso.
        rewrite CommonProofs.sum_n_zero in T; [lra|]. intros i Hi. rewrite D by auto. lra. }
      destruct (normalise_spec v minv d Lv S (PD v Lv NZ)) as (u & EU & FU & LU & a & Pa & Ea).
      rewrite EU, E. exists (vadd u mean :: pts).
      assert (MV : minus (vadd u mean) mean = u) by (apply vadd_minus; lia).
      split; [reflexivity|]. split; [simpl; lia|]. split.
      * intros p [<-|Hp]; auto. rewrite MV. split; auto. unfold vadd.
        rewrite map_length, combine_length. lia.
      * intros p [<-|Hp]; auto. exists v, a. rewrite MV. simpl. auto.
    + exists pts. auto.
Qed.

(** ---- process_list ---- *)
Lemma enumerate_fst {A} (l : list A) : forall i, map fst (enumerate i l) = seq i (length l).
Proof. induction l; intros; simpl; f_equal; auto. Qed.
Lemma enumerate_nth {A} (l : list A) : forall i k x,
  In (k, x) (enumerate i l) -> nth_error l (k - i) = Some x /\ (i <= k)%nat.
Proof.
  induction l as [|y l IH]; intros i k x H; [contradiction|]. simpl in H. destruct H as [H|H].
  - injection H as <- <-. rewrite Nat.sub_diag. auto.
  - apply IH in H. destruct H as [H1 H2]. split; [|lia].
    replace (k - i)%nat with (S (k - S i)) by lia. auto.
Qed.

Inductive steps {A V} (f : A -> Outcome V) (workers : nat) : Pool A V -> Pool A V -> Prop :=
| steps_refl : forall p, steps f workers p p
| steps_more : forall p q r, pool_step f workers p q -> steps f workers q r -> steps f workers p r.

(** All jobs, finished or not, with what they give. *)
Definition jobs {A V} (f : A -> Outcome V) (p : Pool A V) : list (nat * Outcome V) :=
  map (fun ix => (fst ix, f (snd ix))) (p_todo p ++ p_running p) ++ p_queue p.

Lemma pool_step_jobs {A V} (f : A -> Outcome V) k p q : pool_step f k p q ->
  Permutation (jobs f p) (jobs f q).
Proof.
  intros H. destruct H; unfold jobs; simpl; rewrite !map_app; simpl.
  - apply Permutation_app_tail. rewrite <- !app_assoc. apply Permutation_app_head. simpl.
    apply Permutation_middle.
  - rewrite <- !app_assoc. apply Permutation_app_head. apply Permutation_app_head. simpl.
    rewrite app_assoc. apply Permutation_cons_app. rewrite app_nil_r. reflexivity.
Qed.
Lemma steps_jobs {A V} (f : A -> Outcome V) k p q : steps f k p q -> Permutation (jobs f p) (jobs f q).
Proof. induction 1; auto. rewrite <- IHsteps. eapply pool_step_jobs; eauto. Qed.

Lemma collect_perm {V} (olt : Outcome V -> Outcome V -> bool) (outs : list (Outcome V)) q :
  Permutation q (enumerate 0 outs) -> collect olt q = outs.
Proof.
  intros P. unfold collect.
  set (lt := fun a b : nat * Outcome V => Nat.ltb (fst a) (fst b)).
  assert (ND : NoDup (map fst q)).
  { eapply Permutation_NoDup; [apply Permutation_map, Permutation_sym; exact P|].
    rewrite enumerate_fst. apply seq_NoDup. }
  assert (SE : sort (pair_ltb olt) q = sort lt q).
  { assert (G : forall l, NoDup (map fst l) -> sort (pair_ltb olt) l = sort lt l).
    { induction l as [|x l IH]; intros N; auto. inversion N; subst. simpl. rewrite IH by auto.
      assert (F : forall y, In y (sort lt l) -> pair_ltb olt y x = lt y x).
      { intros y Hy. apply sort_in in Hy. unfold pair_ltb, lt.
        destruct (Nat.eqb_spec (fst y) (fst x)) as [E|E]; auto.
        destruct H1. rewrite <- E. apply in_map. auto. }
      revert F. generalize (sort lt l). intros s F. induction s as [|y s IHs]; auto. simpl.
      rewrite F by (simpl; auto). rewrite IHs by (intros; apply F; simpl; auto). reflexivity. }
    apply G. auto. }
  rewrite SE.
  assert (W : weak_order lt).
  { constructor; unfold lt.
    - intros. apply Nat.ltb_irrefl.
    - intros x y H. rewrite Nat.ltb_lt in H. apply Nat.ltb_ge. lia.
    - intros x y z H1 H2. rewrite Nat.ltb_ge in *. lia. }
  assert (M : map fst (sort lt q) = seq 0 (length outs)).
  { assert (W' : weak_order Nat.ltb).
    { constructor; intros.
      - apply Nat.ltb_irrefl.
      - rewrite Nat.ltb_lt in H. apply Nat.ltb_ge. lia.
      - rewrite Nat.ltb_ge in *. lia. }
    apply (sorted_perm_unique Nat.ltb).
    - unfold le. intros x y. rewrite !Nat.ltb_ge. lia.
    - pose proof (sort_sorted lt W q) as SS. clear SE. induction SS as [|a l SS IH F]; simpl; constructor; auto.
      rewrite Forall_forall in *. intros x Hx. apply in_map_iff in Hx. destruct Hx as (y & <- & Hy).
      apply (F y Hy).
    - generalize 0%nat. induction (length outs) as [|m IH]; intros s; simpl; constructor; auto.
      rewrite Forall_forall. intros x Hx. apply in_seq in Hx. unfold le. apply Nat.ltb_ge. lia.
    - rewrite sort_perm. rewrite P, enumerate_fst. reflexivity. }
  apply list_ext. intros i. rewrite nth_error_map.
  destruct (nth_error (sort lt q) i) as [[k o]|] eqn:E; simpl.
  - assert (K : k = i).
    { apply (f_equal (fun l => nth_error l i)) in M. rewrite nth_error_map, E in M. simpl in M.
      assert (Hi : (i < length outs)%nat).
      { rewrite <- (seq_length (length outs) 0). apply nth_error_Some. rewrite <- M. discriminate. }
      rewrite (nth_error_nth' _ 0%nat) in M by (rewrite seq_length; auto).
      rewrite seq_nth in M by auto. injection M as ->. reflexivity. }
    subst k. assert (I : In (i, o) (enumerate 0 outs)).
    { eapply Permutation_in; [exact P|]. apply (sort_in lt). eapply nth_error_In; eauto. }
    apply enumerate_nth in I. rewrite Nat.sub_0_r in I. symmetry. apply I.
  - symmetry. apply nth_error_None. apply nth_error_None in E.
    rewrite sort_length, (Permutation_length P) in E. rewrite <- (map_length fst), enumerate_fst, seq_length in E.
    exact E.
Qed.

Lemma enumerate_map {A B} (f : A -> B) l : forall i,
  map (fun ix => (fst ix, f (snd ix))) (enumerate i l) = enumerate i (map f l).
Proof. induction l; intros; simpl; f_equal; auto. Qed.

(** ---- inverses ---- *)
Lemma sum_n_swap n k (f : nat -> nat -> R) :
  sum_n n (fun i => sum_n k (fun j => f i j)) = sum_n k (fun j => sum_n n (fun i => f i j)).
Proof.
  induction n as [|n IH]; simpl.
  - symmetry. apply CommonProofs.sum_n_zero. auto.
  - rewrite IH, <- sum_n_plus. reflexivity.
Qed.

Lemma inverse_positive d m minv : positive_definite d m -> inverse_of d m minv ->
  positive_definite d minv.
Proof.
  intros [S PD] [S' (one & P & I)]. split; auto. intros v Lv NZ.
  set (u := map (fun k => sum_n d (fun j => ent minv k j * nth j v 0)) (seq 0 d)).
  assert (Lu : length u = d) by (unfold u; rewrite map_length, seq_length; auto).
  assert (Nu : forall k, (k < d)%nat -> nth k u 0 = sum_n d (fun j => ent minv k j * nth j v 0)).
  { intros k Hk. unfold u.
    rewrite (nth_indep _ 0 (sum_n d (fun j => ent minv 0%nat j * nth j v 0))) by (rewrite map_length, seq_length; auto).
    rewrite (map_nth (fun k => sum_n d (fun j => ent minv k j * nth j v 0))), seq_nth by auto. reflexivity. }
  assert (Nv : forall i, (i < d)%nat -> nth i v 0 = sum_n d (fun k => ent m i k * nth k u 0)).
  { intros i Hi.
    rewrite (sum_n_ext d _ (fun k => sum_n d (fun j => ent m i k * ent minv k j * nth j v 0))).
    - rewrite sum_n_swap.
      rewrite (sum_n_ext d _ (fun j => ent one i j * nth j v 0)).
      + rewrite (sum_n_one d _ i); auto.
        * rewrite (I i i), Nat.eqb_refl by auto. lra.
        * intros j Hj Nj. rewrite (I i j) by auto. destruct (Nat.eqb_spec i j); [congruence|lra].
      + intros j Hj. rewrite (P i j) by auto. rewrite Rmult_comm, <- sum_n_scale.
        apply sum_n_ext. intros. ring.
    - intros k Hk. rewrite Nu by auto. rewrite <- sum_n_scale. apply sum_n_ext. intros. ring. }
  assert (NZu : nonzero u).
  { destruct NZ as [i Hi].
    assert (Hd : (i < d)%nat).
    { destruct (Nat.lt_ge_cases i d); auto. rewrite nth_overflow in Hi by lia. congruence. }
    assert (D : (exists k, (k < d)%nat /\ nth k u 0 <> 0) \/ (forall k, (k < d)%nat -> nth k u 0 = 0)).
    { generalize u. clear. intros u. induction d as [|d IH]; [right; lia|].
      destruct IH as [(k & A & B)|B]; [left; exists k; split; auto; lia|].
      destruct (Req_EM_T (nth d u 0) 0); [|left; exists d; split; auto; lia].
      right. intros k Hk. destruct (Nat.eq_dec k d); [subst; auto|apply B; lia]. }
    destruct D as [(k & _ & D)|D]; [exists k; auto|]. exfalso. apply Hi. rewrite Nv by auto.
    apply CommonProofs.sum_n_zero. intros k Hk. rewrite D by auto. lra. }
  specialize (PD u Lu NZu). unfold form in *. rewrite Lu in PD. rewrite Lv.
  erewrite sum_n_ext; [exact PD|]. intros i Hi. cbv beta.
  rewrite (sum_n_ext d _ (fun j => nth i v 0 * (ent minv i j * nth j v 0))) by (intros; ring).
  rewrite sum_n_scale, <- Nu by auto. rewrite (Nv i) by auto. rewrite Rmult_comm, <- sum_n_scale.
  apply sum_n_ext. intros. ring.
Qed.
