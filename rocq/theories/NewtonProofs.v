(** Lemmas about nd_newton_raphson. *)
From Coq Require Import Reals ZArith List Bool Lia Lra.
From Verif Require Import Num HitPyModel HitPySpec BunchModel PyLibModel CommonModel CommonSpec EllipseModel TransformModel FitModel
  BunchProofs CommonProofs GridProofs TransformProofs MultipoleProofs NewtonModel NewtonSpec.
Import ListNotations.
Open Scope R_scope.

Arguments columns : simpl never.
Arguments x_points : simpl never.

Lemma all_some_nth {A} (h : nat -> option A) d n : forall s l, all_some (map h (seq s n)) = Some l ->
  List.length l = n /\ forall i, (i < n)%nat -> h (s + i)%nat = Some (nth i l d).
Proof.
  induction n as [|n IH]; intros s l H; cbn [seq map all_some] in H.
  - injection H as <-. split; [reflexivity|]. intros; lia.
  - destruct (h s) as [v|] eqn:E; [|discriminate]. destruct (all_some (map h (seq (S s) n))) as [r|] eqn:E'; [|discriminate].
    injection H as <-. destruct (IH _ _ E') as [L N]. split; [cbn; lia|]. intros [|i] Hi; [rewrite Nat.add_0_r; auto|].
    cbn [nth]. rewrite <- N by lia. f_equal. lia.
Qed.

Lemma x_points_spec x delta pts : x_points x delta = Some pts ->
  star (List.length x) pts /\ hd [] pts = x /\
  (forall i, (i < List.length x)%nat -> exists d, nth_error delta i = Some d /\ arm pts i = d).
Proof.
  unfold x_points. destruct (all_some _) as [l|] eqn:E; [|discriminate]. intros H. injection H as <-.
  destruct (all_some_nth _ [] _ _ _ E) as [L N]. cbn [Nat.add] in N.
  assert (Q : forall i, (i < List.length x)%nat -> exists d, nth_error delta i = Some d /\ nth i l [] = set_nth x i (nth i x 0 + d)).
  { intros i Hi. specialize (N i Hi). destruct (nth_error delta i) as [d|]; [|discriminate]. injection N as N. eauto. }
  split; [|split; [reflexivity|]].
  - split; [cbn; lia|]. split.
    + intros p [<-|I]; [reflexivity|]. destruct (In_nth _ _ [] I) as (i & Hi & <-). destruct (Q i) as (d & _ & ->); [lia|].
      apply set_nth_length.
    + intros i k Hi Hk Nk. cbn [nth hd]. destruct (Q i Hi) as (d & _ & ->). rewrite nth_set_nth by auto.
      destruct (Nat.eq_dec i k); [congruence|reflexivity].
  - intros i Hi. destruct (Q i Hi) as (d & Ed & En). exists d. split; [exact Ed|]. unfold arm. cbn [nth hd]. rewrite En, nth_set_nth by auto.
    destruct (Nat.eq_dec i i); [ring|congruence].
Qed.

Lemma columns_spec delta y0 ys n_tol n : forall k i cols, columns k i delta y0 ys n_tol n = inr (Some cols) ->
  List.length cols = k /\ forall q, (q < k)%nat -> exists d, nth_error delta (i + q) = Some d /\ float_tolerance <= Rabs d /\
    forall j, (j < n_tol)%nat -> nth j (nth q cols []) 0 = (nth j (nth (i + q) ys []) 0 - nth j y0 0) / d.
Proof.
  induction k as [|k IH]; intros i cols H.
  - injection H as <-. split; [reflexivity|]. intros; lia.
  - unfold columns in H; fold columns in H. destruct (nth_error delta i) as [d|] eqn:Ed; [|discriminate].
    destruct (Rlt_dec (Rabs d) float_tolerance) as [|T]; [discriminate|].
    destruct (all_some _) as [col|] eqn:Ec; [|discriminate].
    destruct (columns k (S i) delta y0 ys n_tol n) as [|[cs|]] eqn:Er; try discriminate. injection H as <-.
    destruct (IH _ _ Er) as [L Q]. split; [cbn; lia|]. intros [|q] Hq.
    + exists d. rewrite Nat.add_0_r. split; [exact Ed|]. split; [lra|]. intros j Hj. cbn [nth].
      destruct (all_some_nth _ 0 _ _ _ Ec) as [Lc Nc]. specialize (Nc j Hj). cbn [Nat.add] in Nc.
      destruct (nth_error ys i) as [y|] eqn:Ey; [|discriminate]. rewrite (nth_error_nth _ _ [] Ey).
      destruct (nth_error y j) as [a|] eqn:Ea; [|discriminate]. destruct (nth_error y0 j) as [c|] eqn:E0; [|discriminate].
      rewrite (nth_error_nth _ _ 0 Ea), (nth_error_nth _ _ 0 E0). destruct (Nat.ltb j n); [|discriminate]. injection Nc as <-. reflexivity.
    + destruct (Q q) as (d' & Ed' & T' & J); [lia|]. exists d'. rewrite Nat.add_succ_r. split; [exact Ed'|]. split; [exact T'|]. exact J.
Qed.

Lemma within_spec n y tol b : List.length tol = n -> within n y tol = Some b -> (b = true <-> within_tolerance tol y).
Proof.
  intros L. unfold within. destruct (all_some _) as [l|] eqn:E; [|discriminate]. intros H. injection H as <-.
  destruct (all_some_nth _ false _ _ _ E) as [Ll N]. cbn [Nat.add] in N.
  assert (Q : forall i, (i < n)%nat -> nth i l false = true <-> Rabs (nth i y 0) <= nth i tol 0).
  { intros i Hi. specialize (N i Hi). destruct (nth_error y i) as [v|] eqn:Ev; [|discriminate].
    destruct (nth_error tol i) as [t|] eqn:Et; [|discriminate]. rewrite (nth_error_nth _ _ 0 Ev), (nth_error_nth _ _ 0 Et).
    injection N as <-. destruct (Rlt_dec t (Rabs v)); split; intros; try discriminate; auto; lra. }
  rewrite forallb_forall. unfold within_tolerance. rewrite L. split.
  - intros F i Hi. apply Q; auto. apply F, nth_In. lia.
  - intros T v I. destruct (In_nth _ _ false I) as (i & Hi & <-). apply Q; [lia|]. apply T. lia.
Qed.

Lemma wrap_all_length x : forall l u x', wrap_all l u x = inr x' -> List.length x' = List.length x.
Proof.
  induction x as [|v x IH]; intros l u x' H; cbn [wrap_all] in H; [injection H as <-; reflexivity|].
  destruct l as [|a l]; [discriminate|]. destruct u as [|b u]; [discriminate|].
  destruct (Req_EM_T (b - a) 0); [discriminate|]. destruct (wrap_all l u x) as [|r] eqn:E; [discriminate|]. injection H as <-.
  cbn. f_equal. eapply IH; eauto.
Qed.
Lemma wrapped_length lim x x' : wrapped lim x = inr x' -> List.length x' = List.length x.
Proof. destruct lim as [[l u]|]; cbn; [apply wrap_all_length|intros H; injection H as <-; reflexivity]. Qed.

Lemma vadd_length a : forall b, List.length b = List.length a -> List.length (vadd a b) = List.length a.
Proof. unfold vadd. intros b H. rewrite map_length, combine_length, H, Nat.min_id. reflexivity. Qed.
Lemma vadd_nth a : forall b i, List.length b = List.length a -> nth i (vadd a b) 0 = nth i a 0 + nth i b 0.
Proof.
  unfold vadd. induction a as [|x a IH]; intros [|y b] i H; try discriminate.
  - destruct i; cbn; ring.
  - destruct i; cbn [combine map nth fst snd]; [reflexivity|]. apply IH. cbn in H. lia.
Qed.

Section Loop.
  Variable inv : Matrix -> option Matrix.
  Variable f : list R -> list R.
  Variable n : nat.
  Hypothesis Hi : forall m minv, shape n n m -> inv m = Some minv -> inverse_of n m minv.
  Variable tol : list R.
  Hypothesis Ht : List.length tol = n.

  Definition secant (pts : list (list R)) (x' : list R) : Prop :=
    List.length x' = n /\ (forall i, (i < n)%nat -> float_tolerance <= Rabs (arm pts i)) /\
    forall j, (j < n)%nat -> sum_n n (fun i => slope f pts j i * (nth i x' 0 - nth i (hd [] pts) 0)) = - nth j (f (hd [] pts)) 0.

  (** One Newton step. *)
  Lemma step_spec x delta pts cols m : List.length x = n -> x_points x delta = Some pts ->
    columns n 0 delta (f x) (map f (tl pts)) n n = inr (Some cols) -> inv (jacobian n cols) = Some m -> List.length (f x) = n ->
    secant pts (vadd x (map (fun row => - dot row (f x)) m)) /\ List.length (map (fun row => - dot row (f x)) m) = n.
  Proof.
    intros Lx Ep Ec Em Ly. destruct (x_points_spec _ _ _ Ep) as (St & Hh & Ar). rewrite Lx in *.
    destruct (columns_spec _ _ _ _ _ _ _ _ Ec) as [Lc Q]. cbn [Nat.add] in Q.
    destruct (matrix_of_ent n (fun j i => nth j (nth i cols []) 0)) as [Sq Ej]. fold (jacobian n cols) in Sq, Ej.
    destruct (Hi _ _ Sq Em) as [[Lm Rm] (one & P1 & P2)].
    set (step := map (fun row => - dot row (f x)) m).
    assert (Ls : List.length step = n) by (unfold step; rewrite map_length; auto).
    split; [|exact Ls]. split; [rewrite vadd_length; lia|]. split.
    - intros i Hin. destruct (Q i Hin) as (d & Ed & T & _). destruct (Ar i Hin) as (d' & Ed' & Ea). rewrite Ea. congruence.
    - intros j Hj. rewrite Hh.
      rewrite (CommonProofs.sum_n_ext n _ (fun i => ent (jacobian n cols) j i * - sum_n n (fun k => ent m i k * nth k (f x) 0))).
      + rewrite (CommonProofs.sum_n_ext n _ (fun i => -1 * sum_n n (fun k => ent (jacobian n cols) j i * ent m i k * nth k (f x) 0))).
        2: { intros i _. replace (ent (jacobian n cols) j i * - sum_n n (fun k => ent m i k * nth k (f x) 0))
               with (-1 * (ent (jacobian n cols) j i * sum_n n (fun k => ent m i k * nth k (f x) 0))) by ring. f_equal.
             rewrite <- sum_n_scale. apply CommonProofs.sum_n_ext. intros; ring. }
        rewrite sum_n_scale, GridProofs.sum_n_swap.
        rewrite (CommonProofs.sum_n_ext n _ (fun k => ent one j k * nth k (f x) 0)).
        2: { intros k Hk. rewrite (P1 j k Hj Hk).
             rewrite (CommonProofs.sum_n_ext n _ (fun i => nth k (f x) 0 * (ent (jacobian n cols) j i * ent m i k))) by (intros; ring).
             rewrite sum_n_scale. ring. }
        rewrite (sum_n_one n _ j Hj).
        * rewrite (P2 j j Hj Hj). rewrite Nat.eqb_refl. ring.
        * intros k Hk Nk. rewrite (P2 j k Hj Hk). destruct (Nat.eqb_spec j k); [congruence|ring].
      + intros i Hin. destruct (Q i Hin) as (d & Ed & T & J). destruct (Ar i Hin) as (d' & Ed' & Ea).
        assert (Ea2 : arm pts i = d) by congruence. f_equal.
        * rewrite (Ej j i Hj Hin), (J j Hj). unfold slope. rewrite Ea2, Hh. f_equal. f_equal.
          destruct pts as [|p pts]; [destruct St; discriminate|]. cbn [tl nth].
          rewrite (nth_indep (map f pts) [] (f [])) by (rewrite map_length; destruct St as [L _]; cbn in L; lia).
          rewrite map_nth. reflexivity.
        * rewrite vadd_nth by lia. unfold step.
          rewrite (nth_indep (map (fun row => - dot row (f x)) m) 0 (- dot [] (f x))) by (rewrite map_length; lia).
          rewrite (map_nth (fun row => - dot row (f x)) m [] i).
          rewrite (dot_rsum _ _ n) by (auto; apply Rm, nth_In; lia). unfold ent. ring.
  Qed.

  Lemma loop_spec limits : forall count x delta calls r, List.length x = n ->
    newton_loop inv (map f) count limits tol x delta = (calls, r) ->
    (List.length calls <= 2 * count)%nat /\
    (forall k pts, nth_error calls (2 * k) = Some pts -> star n pts /\
       (within_tolerance tol (f (hd [] pts)) -> (List.length calls <= 2 * k + 2)%nat)) /\
    (forall k q, nth_error calls (2 * k + 1) = Some q -> exists pts x',
       nth_error calls (2 * k) = Some pts /\ q = [x'] /\ secant pts x' /\
       ((2 * k + 2 = List.length calls)%nat -> (2 * k + 2 < 2 * count)%nat -> (exists v, r = inr v) ->
        within_tolerance tol (f (hd [] pts)))) /\
    (forall v, r = inr v -> (1 <= count)%nat -> List.length v = n /\ exists front q, calls = front ++ [q] /\ hd [] q = v).
  Proof.
    assert (None_nth : forall k, nth_error (@nil (list (list R))) k = None) by (intros []; reflexivity).
    induction count as [|count IH]; intros x delta calls r Lx E; cbn [newton_loop] in E.
    { injection E as <- <-. split; [cbn; lia|]. split; [intros k pts Q; rewrite None_nth in Q; discriminate|].
      split; [intros k q Q; rewrite None_nth in Q; discriminate|]. intros; lia. }
    assert (Empty : forall e, calls = [] -> r = inl e -> (List.length calls <= 2 * S count)%nat /\
      (forall k pts, nth_error calls (2 * k) = Some pts -> star n pts /\
         (within_tolerance tol (f (hd [] pts)) -> (List.length calls <= 2 * k + 2)%nat)) /\
      (forall k q, nth_error calls (2 * k + 1) = Some q -> exists pts x',
         nth_error calls (2 * k) = Some pts /\ q = [x'] /\ secant pts x' /\
         ((2 * k + 2 = List.length calls)%nat -> (2 * k + 2 < 2 * S count)%nat -> (exists v, r = inr v) ->
          within_tolerance tol (f (hd [] pts)))) /\
      (forall v, r = inr v -> (1 <= S count)%nat -> List.length v = n /\ exists front q, calls = front ++ [q] /\ hd [] q = v)).
    { intros e -> ->. split; [cbn; lia|]. split; [intros k pts Q; rewrite None_nth in Q; discriminate|].
      split; [intros k q Q; rewrite None_nth in Q; discriminate|]. intros; discriminate. }
    destruct (wrapped limits x) as [e|x1] eqn:Ew; [injection E as <- <-; eapply Empty; eauto|].
    apply wrapped_length in Ew. rewrite Lx in Ew. clear x Lx. rename x1 into x.
    destruct (x_points x delta) as [pts|] eqn:Ep; [|injection E as <- <-; eapply Empty; eauto].
    destruct (x_points_spec _ _ _ Ep) as (St & Hh & _). rewrite Ew in St.
    assert (One : forall r', calls = [pts] -> r = r' -> (forall v, r' = inr v -> v = x) -> (List.length calls <= 2 * S count)%nat /\
      (forall k pts, nth_error calls (2 * k) = Some pts -> star n pts /\
         (within_tolerance tol (f (hd [] pts)) -> (List.length calls <= 2 * k + 2)%nat)) /\
      (forall k q, nth_error calls (2 * k + 1) = Some q -> exists pts x',
         nth_error calls (2 * k) = Some pts /\ q = [x'] /\ secant pts x' /\
         ((2 * k + 2 = List.length calls)%nat -> (2 * k + 2 < 2 * S count)%nat -> (exists v, r = inr v) ->
          within_tolerance tol (f (hd [] pts)))) /\
      (forall v, r = inr v -> (1 <= S count)%nat -> List.length v = n /\ exists front q, calls = front ++ [q] /\ hd [] q = v)).
    { intros r' -> -> Hv. split; [cbn; lia|]. split.
      - intros [|k] p Q; [injection Q as <-; split; [exact St|cbn; lia]|].
        replace (2 * S k)%nat with (S (S (2 * k))) in Q by lia. cbn [nth_error] in Q. rewrite ?None_nth in Q. discriminate.
      - split; [intros k q Q; replace (2 * k + 1)%nat with (S (2 * k)) in Q by lia; cbn [nth_error] in Q; rewrite None_nth in Q; discriminate|].
        intros v Ev _. rewrite (Hv v Ev). split; [exact Ew|]. exists [], pts. split; [reflexivity|]. exact Hh. }
    rewrite Ew in E. rewrite Ht in E.
    destruct pts as [|p0 ps]; [destruct St; discriminate|]. cbn [hd] in Hh. subst p0. cbn [map] in E.
    destruct (columns n 0 delta (f x) (map f ps) n n) as [e|[cols|]] eqn:Ec.
    { injection E as <- <-. eapply One; eauto. intros; discriminate. }
    2: { injection E as <- <-. eapply One; eauto. intros v Q; injection Q as <-; auto. }
    destruct (inv (jacobian n cols)) as [m|] eqn:Em.
    2: { injection E as <- <-. eapply One; eauto. intros v Q; injection Q as <-; auto. }
    destruct (Nat.eqb_spec (List.length (f x)) n) as [Ly|].
    2: { injection E as <- <-. eapply One; eauto. intros v Q; injection Q as <-; auto. }
    destruct (within n (f x) tol) as [dn|] eqn:Ed.
    2: { injection E as <- <-. eapply One; eauto. intros; discriminate. }
    pose proof (within_spec _ _ _ _ Ht Ed) as W.
    destruct (step_spec x delta (x :: ps) cols m Ew Ep Ec Em Ly) as [Sc Ls].
    set (step := map (fun row => - dot row (f x)) m) in *. set (x' := vadd x step) in *.
    assert (Lx' : List.length x' = n) by apply Sc.
    destruct dn.
    - injection E as <- <-. split; [cbn; lia|]. split.
      + intros [|k] p Q; [injection Q as <-; split; [exact St|cbn; lia]|].
        replace (2 * S k)%nat with (S (S (2 * k))) in Q by lia. cbn [nth_error] in Q. rewrite None_nth in Q. discriminate.
      + split.
        * intros [|k] q Q.
          -- cbn in Q. injection Q as <-. exists (x :: ps), x'. split; [reflexivity|]. split; [reflexivity|]. split; [exact Sc|].
             intros _ _ _. cbn [hd]. apply W. reflexivity.
          -- replace (2 * S k + 1)%nat with (S (S (2 * k + 1))) in Q by lia. cbn [nth_error] in Q. rewrite None_nth in Q. discriminate.
        * intros v Q _. injection Q as <-. split; [exact Lx'|]. exists [x :: ps], [x']. split; reflexivity.
    - destruct (newton_loop inv (map f) count limits tol x' step) as [rest r'] eqn:El. injection E as <- <-.
      destruct (IH x' step rest r' Lx' El) as (I1 & I2 & I3 & I4).
      assert (Nw : ~ within_tolerance tol (f x)) by (intros Q; apply W in Q; discriminate).
      split; [cbn; lia|]. split.
      + intros [|k] p Q.
        * injection Q as <-. split; [exact St|]. cbn [hd]. intros; contradiction.
        * replace (2 * S k)%nat with (S (S (2 * k))) in Q by lia. cbn [nth_error] in Q. destruct (I2 k p Q) as [A B].
          split; [exact A|]. intros T. specialize (B T). cbn [List.length app] in *. lia.
      + split.
        * intros [|k] q Q.
          -- cbn in Q. injection Q as <-. exists (x :: ps), x'. split; [reflexivity|]. split; [reflexivity|]. split; [exact Sc|].
             intros L C (v & Ev). exfalso. cbn [List.length app] in L. assert (R0 : rest = []) by (destruct rest; [reflexivity|cbn in L; lia]).
             destruct (I4 v Ev ltac:(lia)) as (_ & fr & q' & Q & _). subst rest. destruct fr; discriminate.
          -- replace (2 * S k + 1)%nat with (S (S (2 * k + 1))) in Q by lia. cbn [nth_error] in Q.
             destruct (I3 k q Q) as (pts & x2 & A & B & C & D). exists pts, x2.
             replace (2 * S k)%nat with (S (S (2 * k))) by lia. split; [exact A|]. split; [exact B|]. split; [exact C|].
             intros L L2 Ev. apply D; [cbn [List.length app] in L; lia|lia|exact Ev].
        * intros v Q _. destruct count as [|count'].
          -- cbn in El. injection El as <- <-. injection Q as <-. split; [exact Lx'|]. exists [x :: ps], [x']. split; reflexivity.
          -- destruct (I4 v Q ltac:(lia)) as (Lv & fr & q & A & B). split; [exact Lv|]. exists (((x :: ps) :: [x'] :: fr)), q.
             rewrite A. split; [reflexivity|exact B].
  Qed.
End Loop.

(** ---- when a round can be carried out ---- *)
Lemma x_points_total x delta : (List.length x <= List.length delta)%nat -> exists pts, x_points x delta = Some pts.
Proof.
  intros L. unfold x_points.
  assert (E : all_some (map (fun i => match nth_error delta i with Some d => Some (set_nth x i (nth i x 0 + d)) | None => None end)
    (seq 0 (List.length x))) = Some (map (fun i => set_nth x i (nth i x 0 + nth i delta 0)) (seq 0 (List.length x)))).
  { apply BunchProofs.all_some_map. intros i I. apply in_seq in I. rewrite (nth_error_nth' delta 0) by lia. reflexivity. }
  rewrite E. eexists. reflexivity.
Qed.

Lemma columns_total delta y0 ys n : List.length y0 = n -> forall k i, (i + k <= List.length delta)%nat -> (i + k <= List.length ys)%nat ->
  (forall y, In y ys -> List.length y = n) ->
  exists o, columns k i delta y0 ys n n = inr o /\
    ((forall q, (q < k)%nat -> float_tolerance <= Rabs (nth (i + q) delta 0)) -> exists cols, o = Some cols).
Proof.
  intros L0. induction k as [|k IH]; intros i Ld Ly Hy.
  - exists (Some []). split; [reflexivity|]. intros; eauto.
  - unfold columns; fold columns. rewrite (nth_error_nth' delta 0) by lia.
    destruct (Rlt_dec (Rabs (nth i delta 0)) float_tolerance) as [T|T].
    + exists None. split; [reflexivity|]. intros Q. specialize (Q 0%nat ltac:(lia)). rewrite Nat.add_0_r in Q. lra.
    + rewrite (nth_error_nth' ys []) by lia.
      assert (Li : List.length (nth i ys []) = n) by (apply Hy, nth_In; lia).
      rewrite (BunchProofs.all_some_map _ (fun j => (nth j (nth i ys []) 0 - nth j y0 0) / nth i delta 0)).
      * destruct (IH (S i) ltac:(lia) ltac:(lia) Hy) as (o & -> & Q). destruct o as [cols|].
        -- eexists. split; [reflexivity|]. intros _. eauto.
        -- exists None. split; [reflexivity|]. intros H. apply Q. intros q Hq. rewrite Nat.add_succ_comm. apply H. lia.
      * intros j Ij. apply in_seq in Ij. rewrite (nth_error_nth' (nth i ys []) 0), (nth_error_nth' y0 0) by lia.
        rewrite (proj2 (Nat.ltb_lt j n)) by lia. reflexivity.
Qed.

Lemma within_total n y tol : List.length y = n -> List.length tol = n -> exists b, within n y tol = Some b.
Proof.
  intros Ly Lt. unfold within.
  rewrite (BunchProofs.all_some_map _ (fun i => if Rlt_dec (nth i tol 0) (Rabs (nth i y 0)) then false else true)).
  - eexists. reflexivity.
  - intros i I. apply in_seq in I. rewrite (nth_error_nth' y 0), (nth_error_nth' tol 0) by lia. reflexivity.
Qed.

Lemma small_dec delta n : (exists i, (i < n)%nat /\ Rabs (nth i delta 0) < float_tolerance) \/
  (forall i, (i < n)%nat -> float_tolerance <= Rabs (nth i delta 0)).
Proof.
  induction n as [|n [IH|IH]]; [right; intros; lia| |].
  - left. destruct IH as (i & Hi & T). exists i. split; [lia|exact T].
  - destruct (Rlt_dec (Rabs (nth n delta 0)) float_tolerance) as [T|T].
    + left. exists n. split; [lia|exact T].
    + right. intros i Hi. destruct (Nat.eq_dec i n) as [->|]; [lra|]. apply IH. lia.
Qed.

Section Affine.
  Variable inv : Matrix -> option Matrix.
  Variable f : list R -> list R.
  Variable n : nat.
  Hypothesis Hi : forall m minv, shape n n m -> inv m = Some minv -> inverse_of n m minv.
  Hypothesis Hj : forall m, shape n n m -> (exists mi, inverse_of n m mi) -> inv m <> None.
  Variable tol : list R.
  Hypothesis Ht : List.length tol = n.
  Variable A : list (list R).
  Variable c : list R.
  Hypothesis Ha : affine n A c f.
  Hypothesis Hai : exists mi, inverse_of n A mi.

  Lemma affine_slope pts : star n pts -> (forall i, (i < n)%nat -> arm pts i <> 0) ->
    forall j i, (j < n)%nat -> (i < n)%nat -> slope f pts j i = ent A j i.
  Proof.
    intros (L & Lp & Sp) Hd j i Hjn Hin. unfold slope.
    assert (I : In (nth (S i) pts []) pts) by (apply nth_In; lia).
    assert (I0 : In (hd [] pts) pts) by (destruct pts; [discriminate|left; reflexivity]).
    destruct (Ha _ (Lp _ I)) as [_ ->]; auto. destruct (Ha _ (Lp _ I0)) as [_ ->]; auto.
    specialize (Hd i Hin). apply (Rmult_eq_reg_r (arm pts i)); [|exact Hd]. unfold Rdiv. rewrite Rmult_assoc, Rinv_l, Rmult_1_r by exact Hd.
    transitivity (sum_n n (fun k => ent A j k * (nth k (nth (S i) pts []) 0 - nth k (hd [] pts) 0))).
    - rewrite (CommonProofs.sum_n_ext n (fun k => ent A j k * (nth k (nth (S i) pts []) 0 - nth k (hd [] pts) 0))
        (fun k => ent A j k * nth k (nth (S i) pts []) 0 + -1 * (ent A j k * nth k (hd [] pts) 0))) by (intros; ring).
      rewrite CommonProofs.sum_n_plus, sum_n_scale. ring.
    - rewrite (sum_n_one n _ i Hin); [reflexivity|]. intros k Hk Nk. rewrite (Sp i k Hin Hk Nk). ring.
  Qed.

  Lemma affine_root pts x' : star n pts -> secant f n pts x' -> forall j, (j < n)%nat -> nth j (f x') 0 = 0.
  Proof.
    intros St (L & Hd & Q) j Hjn. pose proof St as (Lp & Hp & _).
    assert (I0 : In (hd [] pts) pts) by (destruct pts; [discriminate|left; reflexivity]).
    assert (Hd' : forall i, (i < n)%nat -> arm pts i <> 0).
    { intros i Hin E. specialize (Hd i Hin). rewrite E, Rabs_R0 in Hd. unfold float_tolerance in Hd. lra. }
    specialize (Q j Hjn). rewrite (CommonProofs.sum_n_ext n _ (fun i => ent A j i * nth i x' 0 + -1 * (ent A j i * nth i (hd [] pts) 0))) in Q.
    2: { intros i Hin. rewrite (affine_slope pts St Hd' j i Hjn Hin). ring. }
    rewrite CommonProofs.sum_n_plus, sum_n_scale in Q. destruct (Ha _ (Hp _ I0)) as [_ E0]. rewrite (E0 j Hjn) in Q.
    destruct (Ha x' L) as [_ ->]; auto. lra.
  Qed.

  (** One round, for an affine function. *)
  Lemma affine_round count x delta : List.length x = n -> List.length delta = n ->
    exists pts, star n pts /\ hd [] pts = x /\
    ((newton_loop inv (map f) (S count) None tol x delta = ([pts], inr x) /\ exists i, (i < n)%nat /\ Rabs (nth i delta 0) < float_tolerance) \/
     exists x' step, secant f n pts x' /\ List.length step = n /\
       (newton_loop inv (map f) (S count) None tol x delta = ([pts; [x']], inr x') \/
        newton_loop inv (map f) (S count) None tol x delta =
          (let (rest, r) := newton_loop inv (map f) count None tol x' step in ([pts; [x']] ++ rest, r)))).
  Proof.
    intros Lx Ld. destruct (x_points_total x delta) as [pts Ep]; [lia|]. exists pts.
    destruct (x_points_spec _ _ _ Ep) as (St & Hh & Ar). rewrite Lx in *. split; [exact St|]. split; [exact Hh|].
    cbn [newton_loop wrapped]. rewrite Ep, Lx, Ht. destruct pts as [|p0 ps]; [destruct St; discriminate|].
    cbn [hd] in Hh. subst p0. cbn [map]. pose proof St as (Lps & Hps & _).
    destruct (columns_total delta (f x) (map f ps) n) with (k := n) (i := 0%nat) as (o & Ec & Oc).
    { apply Ha, Lx. } { lia. } { rewrite map_length. cbn in Lps. lia. }
    { intros y I. apply in_map_iff in I. destruct I as (p & <- & I). apply Ha, Hps. right; exact I. }
    rewrite Ec. destruct o as [cols|].
    - right. pose proof (proj1 (Ha x Lx)) as Ly.
      assert (Hd : forall i, (i < n)%nat -> arm (x :: ps) i <> 0).
      { intros i Hin E. destruct (columns_spec _ _ _ _ _ _ _ _ Ec) as [_ Q]. destruct (Q i Hin) as (d & Ed & T & _). cbn [Nat.add] in Ed.
        destruct (Ar i Hin) as (d' & Ed' & Ea). rewrite E in Ea. assert (d = 0) by congruence. subst d. rewrite Rabs_R0 in T.
        unfold float_tolerance in T. lra. }
      assert (EJ : forall j i, (j < n)%nat -> (i < n)%nat -> ent (jacobian n cols) j i = ent A j i).
      { intros j i Hjn Hin. rewrite <- (affine_slope _ St Hd j i Hjn Hin).
        unfold jacobian. rewrite (proj2 (matrix_of_ent n _) j i Hjn Hin).
        destruct (columns_spec _ _ _ _ _ _ _ _ Ec) as [_ Q]. destruct (Q i Hin) as (d & Ed & T & J). cbn [Nat.add] in *.
        destruct (Ar i Hin) as (d' & Ed' & Ea). assert (Ea2 : arm (x :: ps) i = d) by congruence.
        rewrite (J j Hjn). unfold slope. rewrite Ea2. cbn [hd nth]. f_equal. f_equal.
        rewrite (nth_indep (map f ps) [] (f [])) by (rewrite map_length; cbn in Lps; lia). rewrite map_nth. reflexivity. }
      destruct (inv (jacobian n cols)) as [m|] eqn:Em.
      2: { exfalso. apply (Hj (jacobian n cols)) in Em; auto; [apply matrix_of_ent|].
           destruct Hai as (mi & Smi & one & P1 & P2). exists mi. split; [exact Smi|]. exists one. split; [|exact P2].
           intros i j Hin Hjn. rewrite (P1 i j Hin Hjn). apply CommonProofs.sum_n_ext. intros k Hk. rewrite EJ by auto. reflexivity. }
      rewrite (proj2 (Nat.eqb_eq _ _) Ly). destruct (within_total n (f x) tol Ly Ht) as [b Eb]. rewrite Eb.
      destruct (step_spec inv f n Hi tol Ht x delta (x :: ps) cols m Lx Ep Ec Em Ly) as [Sc Ls].
      eexists. eexists. split; [exact Sc|]. split; [exact Ls|]. destruct b; [left; reflexivity|right; reflexivity].
    - left. split; [reflexivity|]. destruct (small_dec delta n) as [E|E]; [exact E|]. exfalso.
      destruct Oc as (cols & Q); [|discriminate]. intros q Hq. cbn [Nat.add]. apply E. exact Hq.
  Qed.
End Affine.

(** ---- where a round starts ---- *)
Lemma loop_starts inv f limits tol : forall count x delta calls r,
  newton_loop inv f count limits tol x delta = (calls, r) ->
  forall k pts, nth_error calls (2 * k) = Some pts ->
    exists x1, wrapped limits x1 = inr (hd [] pts) /\
      match k with O => x1 = x | S k' => nth_error calls (2 * k' + 1) = Some [x1] end.
Proof.
  assert (None_nth : forall k, nth_error (@nil (list (list R))) k = None) by (intros []; reflexivity).
  induction count as [|count IH]; intros x delta calls r E k pts Q; cbn [newton_loop] in E.
  { injection E as <- <-. rewrite None_nth in Q. discriminate. }
  destruct (wrapped limits x) as [e|x1] eqn:Ew; [injection E as <- <-; rewrite None_nth in Q; discriminate|].
  destruct (x_points x1 delta) as [p|] eqn:Ep; [|injection E as <- <-; rewrite None_nth in Q; discriminate].
  destruct (x_points_spec _ _ _ Ep) as (_ & Hh & _).
  assert (One : calls = [p] -> exists x2, wrapped limits x2 = inr (hd [] pts) /\
      match k with O => x2 = x | S k' => nth_error calls (2 * k' + 1) = Some [x2] end).
  { intros ->. destruct k as [|k].
    - injection Q as <-. exists x. rewrite Hh. auto.
    - replace (2 * S k)%nat with (S (S (2 * k))) in Q by lia. cbn [nth_error] in Q. rewrite ?None_nth in Q. discriminate. }
  destruct (f p) as [|y0 ys]; [injection E as <- <-; auto|].
  destruct (columns _ _ _ _ _ _ _) as [e|[cols|]]; try (injection E as <- <-; auto; fail).
  destruct (inv _) as [m|]; [|injection E as <- <-; auto].
  destruct (Nat.eqb _ _); [|injection E as <- <-; auto].
  destruct (within _ _ _) as [[]|]; [| |injection E as <- <-; auto].
  - injection E as <- <-. destruct k as [|k].
    + injection Q as <-. exists x. rewrite Hh. auto.
    + replace (2 * S k)%nat with (S (S (2 * k))) in Q by lia. cbn [nth_error] in Q. rewrite None_nth in Q. discriminate.
  - destruct (newton_loop _ _ _ _ _ _ _) as [rest r'] eqn:El. injection E as <- <-. destruct k as [|k].
    + injection Q as <-. exists x. rewrite Hh. auto.
    + replace (2 * S k)%nat with (S (S (2 * k))) in Q by lia. cbn [nth_error] in Q.
      destruct (IH _ _ _ _ El k pts Q) as (x2 & A & B). exists x2. split; [exact A|].
      destruct k as [|k]; [subst x2; reflexivity|].
      replace (2 * S k + 1)%nat with (S (S (2 * k + 1))) by lia. exact B.
Qed.

Lemma wrap_range u x : 0 < u -> 0 <= wrap 0 u x < u.
Proof.
  intros Hu. unfold wrap. rewrite !Rminus_0_r. destruct (base_Int_part (x / u)) as [A B].
  set (z := IZR (Int_part (x / u))) in *. set (q := x / u) in *.
  assert (E : x = u * q) by (unfold q; field; lra). rewrite E. replace (u * q - u * z) with (u * (q - z)) by ring.
  split; [apply Rmult_le_pos; lra|]. rewrite <- (Rmult_1_r u) at 2. apply Rmult_lt_compat_l; lra.
Qed.
Lemma wrap_all_range uppers : (forall u, In u uppers -> 0 < u) -> forall x x', wrap_all (repeat 0 (List.length uppers)) uppers x = inr x' ->
  forall i, (i < List.length x)%nat -> 0 <= nth i x' 0 < nth i uppers 0.
Proof.
  intros Hu. induction uppers as [|u us IH]; intros x x' H i Hi.
  - destruct x as [|v x]; [cbn in Hi; lia|discriminate].
  - destruct x as [|v x]; [cbn in Hi; lia|]. cbn [List.length repeat wrap_all] in H.
    destruct (Req_EM_T (u - 0) 0); [discriminate|]. destruct (wrap_all _ us x) as [|r] eqn:E; [discriminate|]. injection H as <-.
    destruct i as [|i]; cbn [nth]; [apply wrap_range, Hu; left; reflexivity|].
    apply (IH (fun u' I => Hu u' (or_intror I)) x r E). cbn in Hi. lia.
Qed.
