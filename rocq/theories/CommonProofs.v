From Coq Require Import Reals ZArith List Bool Lra Lia Permutation Sorted.
From Verif Require Import Num PyLibModel PyLibProofs HitPyModel HitPySpec HitPyProofs MomentSpec
  MomentProofs CommonModel CommonSpec.
Import ListNotations.
Open Scope list_scope.
Open Scope R_scope.

Lemma rltb_true x y : rltb x y = true <-> x < y.
Proof. unfold rltb. destruct (Rlt_dec x y); split; intros; auto; discriminate. Qed.
Lemma rltb_false x y : rltb x y = false <-> y <= x.
Proof. unfold rltb. destruct (Rlt_dec x y); split; intros; auto; try discriminate; lra. Qed.
Lemma rltb_order : weak_order rltb.
Proof.
  split; intros.
  - apply rltb_false. lra.
  - apply rltb_true in H. apply rltb_false. lra.
  - rewrite rltb_false in *. lra.
Qed.

(** ---- bins ---- *)
Lemma increasing_sorted l : increasing l -> StronglySorted (le rltb) l.
Proof.
  induction l as [|x r IH]; intros H; constructor.
  - apply IH. intros i j a b Hij A B. apply (H (S i) (S j) a b); auto. lia.
  - rewrite Forall_forall. intros y Hy. unfold le. apply rltb_false.
    destruct (In_nth_error _ _ Hy) as [k Hk]. apply (H 0%nat (S k) x y); auto. lia.
Qed.

Lemma bisect_bin edges x p : increasing edges ->
  (in_bin edges p x <-> bisect_right rltb edges x = S p /\ (S p < length edges)%nat).
Proof.
  intros I. pose proof (increasing_sorted _ I) as S.
  destruct (bisect_right_spec rltb rltb_order edges x S) as (A & B & C).
  set (r := bisect_right rltb edges x) in *. split.
  - intros (a & b & Ea & Eb & H1 & H2).
    assert (L : (Datatypes.S p < length edges)%nat) by (apply nth_error_Some; congruence).
    split; auto.
    assert (~ (r <= p)%nat).
    { intros G. specialize (C p a G Ea). apply rltb_true in C. lra. }
    assert (~ (Datatypes.S p < r)%nat).
    { intros G. specialize (B _ b G Eb). apply rltb_false in B. lra. }
    lia.
  - intros [E L].
    destruct (nth_error edges p) as [a|] eqn:Ea; [|apply nth_error_None in Ea; lia].
    destruct (nth_error edges (Datatypes.S p)) as [b|] eqn:Eb; [|apply nth_error_None in Eb; lia].
    exists a, b. repeat split; auto.
    + assert (Hp : (p < r)%nat) by lia. specialize (B p a Hp Ea). apply rltb_false in B. lra.
    + assert (Hp : (r <= Datatypes.S p)%nat) by lia. specialize (C _ b Hp Eb). apply rltb_true in C. lra.
Qed.

Lemma in_bin_unique edges x p q : increasing edges -> in_bin edges p x -> in_bin edges q x -> p = q.
Proof.
  intros I H1 H2. apply bisect_bin in H1, H2; auto. destruct H1 as [H1 _], H2 as [H2 _]. congruence.
Qed.

Lemma in_range_bin edges x : increasing edges -> (in_range edges x <-> exists p, in_bin edges p x).
Proof.
  intros I. pose proof (increasing_sorted _ I) as S.
  destruct (bisect_right_spec rltb rltb_order edges x S) as (A & B & C).
  set (r := bisect_right rltb edges x) in *. split.
  - intros (a & b & Ea & Eb & H1 & H2).
    assert (R0 : r <> 0%nat).
    { intros R0. assert (G : (r <= 0)%nat) by lia. specialize (C 0%nat a G Ea). apply rltb_true in C. lra. }
    assert (R1 : (r < length edges)%nat).
    { destruct (Nat.lt_ge_cases r (length edges)); auto.
      assert (L : (length edges - 1 < r)%nat) by lia. specialize (B _ b L Eb). apply rltb_false in B. lra. }
    exists (r - 1)%nat. apply bisect_bin; auto. fold r. lia.
  - intros (p & a & b & Ea & Eb & H1 & H2).
    assert (L : (Datatypes.S p < length edges)%nat) by (apply nth_error_Some; congruence).
    destruct (nth_error edges 0) as [a0|] eqn:E0; [|apply nth_error_None in E0; lia].
    destruct (nth_error edges (length edges - 1)) as [b0|] eqn:E1; [|apply nth_error_None in E1; lia].
    exists a0, b0. repeat split; auto.
    + assert (a0 <= a) by (eapply (I 0%nat p); eauto; lia). lra.
    + assert (b <= b0) by (eapply (I (Datatypes.S p) (length edges - 1)%nat); eauto; lia). lra.
Qed.

Lemma in_bin_dec edges p x : {in_bin edges p x} + {~ in_bin edges p x}.
Proof.
  unfold in_bin. destruct (nth_error edges p) as [a|]; [|right; intros (a & b & E & _); discriminate].
  destruct (nth_error edges (S p)) as [b|]; [|right; intros (a' & b & _ & E & _); discriminate].
  destruct (Rle_dec a x); [|right; intros (a' & b' & E & _ & H); injection E as <-; lra].
  destruct (Rlt_dec x b); [left; eauto 10|right; intros (a' & b' & _ & E & H); injection E as <-; lra].
Qed.

(** ---- matrices ---- *)
Lemma set_nth_length {A} (l : list A) i x : length (set_nth l i x) = length l.
Proof. revert i. induction l; destruct i; simpl; auto. Qed.
Lemma nth_set_nth {A} (l : list A) i j x d : (i < length l)%nat ->
  nth j (set_nth l i x) d = if Nat.eq_dec i j then x else nth j l d.
Proof.
  revert i j. induction l as [|y l IH]; intros i j H; [simpl in H; lia|].
  destruct i, j; simpl; auto.
  simpl in H. rewrite IH by lia. destruct (Nat.eq_dec i j), (Nat.eq_dec (S i) (S j)); auto; congruence.
Qed.
Lemma in_set_nth {A} (l : list A) i x y : In y (set_nth l i x) -> y = x \/ In y l.
Proof.
  revert i. induction l as [|z l IH]; intros i H; [destruct i; contradiction|].
  destruct i; simpl in *; destruct H as [H|H]; auto. destruct (IH i H); auto.
Qed.

Lemma shape_row n k m i : shape n k m -> (i < n)%nat -> length (nth i m []) = k.
Proof. intros [A B] H. apply B, nth_In. lia. Qed.

Lemma add_to_shape n k m p q w : shape n k m -> shape n k (add_to m p q w).
Proof.
  intros [A B]. unfold add_to. destruct (nth_error m p) as [r|] eqn:E; [|split; auto].
  destruct (nth_error r q) as [x|] eqn:E2; [|split; auto].
  split; [rewrite set_nth_length; auto|]. intros row H. apply in_set_nth in H. destruct H as [-> | H]; auto.
  rewrite set_nth_length. apply B. eapply nth_error_In; eauto.
Qed.
Lemma add_to_ent n k m p q w i j : shape n k m -> (p < n)%nat -> (q < k)%nat ->
  ent (add_to m p q w) i j =
  if Nat.eq_dec p i then if Nat.eq_dec q j then ent m i j + w else ent m i j else ent m i j.
Proof.
  intros S Hp Hq. pose proof (shape_row n k m p S Hp) as L. destruct S as [A B].
  unfold add_to. rewrite (nth_error_nth' m []) by lia. rewrite (nth_error_nth' (nth p m []) 0) by lia.
  unfold ent. rewrite nth_set_nth by lia. destruct (Nat.eq_dec p i) as [-> | ]; auto.
  rewrite nth_set_nth by lia. destruct (Nat.eq_dec q j) as [-> | ]; auto.
Qed.

Lemma zeros_shape n k : shape n k (repeat (repeat 0 k) n).
Proof.
  split; [apply repeat_length|]. intros row H. apply repeat_spec in H. subst. apply repeat_length.
Qed.
Lemma zeros_ent n k i j : ent (repeat (repeat 0 k) n) i j = 0.
Proof.
  unfold ent. destruct (Nat.lt_ge_cases i n) as [H|H].
  - rewrite (nth_indep _ [] (repeat 0 k)) by (rewrite repeat_length; auto).
    rewrite nth_repeat. apply nth_repeat.
  - rewrite (nth_overflow (repeat _ n)) by (rewrite repeat_length; auto). destruct j; reflexivity.
Qed.

(** ---- histogram ---- *)
Lemma fill_spec xb yb : increasing xb -> increasing yb -> forall xs ys ws m,
  length ys = length xs -> length ws = length xs ->
  shape (length xb - 1) (length yb - 1) m ->
  exists m', fill xb yb xs ys ws m = inr m' /\ shape (length xb - 1) (length yb - 1) m' /\
    forall p q, (p < length xb - 1)%nat -> (q < length yb - 1)%nat ->
      exists s, sum_where (fun e => in_bin xb p (e_x e) /\ in_bin yb q (e_y e)) e_w (entries xs ys ws) s /\
                ent m' p q = ent m p q + s.
Proof.
  intros IX IY. induction xs as [|x xr IH]; intros ys ws m Ly Lw S.
  - exists m. split; auto. split; auto. intros p q Hp Hq. exists 0. split; [|lra].
    unfold entries. simpl. constructor.
  - destruct ys as [|y yr]; [discriminate|]. destruct ws as [|w wr]; [discriminate|].
    injection Ly as Ly. injection Lw as Lw. cbn [fill tl].
    set (p0 := bisect_right rltb xb x). set (q0 := bisect_right rltb yb y).
    destruct (_ && _)%bool eqn:C.
    + rewrite !andb_true_iff, !Nat.leb_le, !Nat.ltb_lt in C. destruct C as [[[C1 C2] C3] C4].
      assert (Bx : in_bin xb (p0 - 1) x) by (apply bisect_bin; auto; fold p0; lia).
      assert (By : in_bin yb (q0 - 1) y) by (apply bisect_bin; auto; fold q0; lia).
      destruct (IH yr wr (add_to m (p0 - 1) (q0 - 1) w) Ly Lw (add_to_shape _ _ _ _ _ _ S))
        as (m' & E & S' & H).
      exists m'. split; auto. split; auto. intros p q Hp Hq.
      destruct (H p q Hp Hq) as (s & Hs & Es).
      rewrite (add_to_ent _ _ _ _ _ _ _ _ S) in Es by lia.
      unfold entries in *. cbn [combine].
      destruct (Nat.eq_dec (p0 - 1) p) as [<-|Np]; [destruct (Nat.eq_dec (q0 - 1) q) as [<-|Nq]|].
      * exists (w + s). split; [|lra]. change w with (e_w (x, y, w)) at 2.
        apply (sum_in _ _ (x, y, w)); auto. 
      * exists s. split; auto. apply sum_out; auto. intros [_ G]. apply Nq.
        exact (in_bin_unique _ _ _ _ IY By G).
      * exists s. split; auto. apply sum_out; auto. intros [G _]. apply Np.
        exact (in_bin_unique _ _ _ _ IX Bx G).
    + destruct (IH yr wr m Ly Lw S) as (m' & E & S' & H).
      exists m'. split; auto. split; auto. intros p q Hp Hq.
      destruct (H p q Hp Hq) as (s & Hs & Es). exists s. split; auto.
      unfold entries in *. cbn [combine]. apply sum_out; auto.
      intros [G1 G2]. cbn [e_x e_y fst snd] in *. apply bisect_bin in G1, G2; auto.
      fold p0 in G1. fold q0 in G2.
      rewrite !andb_false_iff, !Nat.leb_gt, !Nat.ltb_ge in C. lia.
Qed.

Lemma sum_where_ext {A} (P Q : A -> Prop) w l s : (forall x, In x l -> (P x <-> Q x)) ->
  sum_where P w l s -> sum_where Q w l s.
Proof.
  intros H S. induction S; [constructor| |].
  - apply sum_in; [apply H; simpl; auto|]. apply IHS. intros y Hy. apply H. simpl; auto.
  - apply sum_out; [intros G; apply H0, H; simpl; auto|]. apply IHS. intros y Hy. apply H. simpl; auto.
Qed.
Lemma sum_where_unique {A} (P : A -> Prop) w l s t : sum_where P w l s -> sum_where P w l t -> s = t.
Proof.
  intros S. revert t. induction S; intros t T; inversion T; subst; auto; try contradiction.
  f_equal. auto.
Qed.

(** Sum over the bins of the weights in each bin = weight in range. *)
Lemma sum_n_zero n (f : nat -> R) : (forall i, (i < n)%nat -> f i = 0) -> sum_n n f = 0.
Proof. induction n as [|n IH]; intros H; simpl; auto. rewrite IH, H by (intros; try apply H; lia). lra. Qed.
Lemma sum_n_one n (f : nat -> R) k : (k < n)%nat -> (forall i, (i < n)%nat -> i <> k -> f i = 0) ->
  sum_n n f = f k.
Proof.
  induction n as [|n IH]; intros K H; [lia|]. simpl.
  destruct (Nat.eq_dec k n) as [-> | N].
  - rewrite sum_n_zero; [lra|]. intros i Hi. apply H; lia.
  - rewrite (H n) by lia. rewrite IH by (intros; try apply H; lia). lra.
Qed.
Lemma sum_n_ext n (f g : nat -> R) : (forall i, (i < n)%nat -> f i = g i) -> sum_n n f = sum_n n g.
Proof. induction n as [|n IH]; intros H; simpl; auto. rewrite IH, H by (intros; try apply H; lia). lra. Qed.
Lemma sum_n_plus n (f g : nat -> R) : sum_n n (fun i => f i + g i) = sum_n n f + sum_n n g.
Proof. induction n as [|n IH]; simpl; [lra|]. rewrite IH. lra. Qed.

Definition in_cell xb yb p q (e : R * R * R) : Prop := in_bin xb p (e_x e) /\ in_bin yb q (e_y e).
Definition cell xb yb p q (e : R * R * R) : R :=
  if in_bin_dec xb p (e_x e) then if in_bin_dec yb q (e_y e) then e_w e else 0 else 0.

Lemma sum_cell xb yb p q l s : sum_where (in_cell xb yb p q) e_w l s -> s = rsum (cell xb yb p q) l.
Proof.
  induction 1; simpl; auto.
  - destruct H as [H1 H2]. unfold cell at 1. destruct (in_bin_dec xb p (e_x x)); [|contradiction].
    destruct (in_bin_dec yb q (e_y x)); [|contradiction]. lra.
  - unfold cell at 1. destruct (in_bin_dec xb p (e_x x)); [|lra].
    destruct (in_bin_dec yb q (e_y x)); [|lra]. destruct H. split; auto.
Qed.

Lemma cells_total xb yb l : increasing xb -> increasing yb ->
  sum_where (fun e => in_range xb (e_x e) /\ in_range yb (e_y e)) e_w l
    (sum_n (length xb - 1) (fun p => sum_n (length yb - 1) (fun q => rsum (cell xb yb p q) l))).
Proof.
  intros IX IY. induction l as [|e l IH].
  - simpl. rewrite sum_n_zero; [constructor|]. intros. apply sum_n_zero. auto.
  - cbn [rsum].
    assert (E : sum_n (length xb - 1) (fun p => sum_n (length yb - 1) (fun q =>
                  cell xb yb p q e + rsum (cell xb yb p q) l)) =
       sum_n (length xb - 1) (fun p => sum_n (length yb - 1) (fun q => cell xb yb p q e)) +
       sum_n (length xb - 1) (fun p => sum_n (length yb - 1) (fun q => rsum (cell xb yb p q) l))).
    { rewrite <- sum_n_plus. apply sum_n_ext. intros. apply sum_n_plus. }
    rewrite E.
    destruct (Nat.eq_dec 0 0) as [_|N]; [|congruence].
    assert (D : (exists p q, in_cell xb yb p q e) \/ ~ (exists p q, in_cell xb yb p q e)).
    { set (p0 := bisect_right rltb xb (e_x e)). set (q0 := bisect_right rltb yb (e_y e)).
      destruct (in_bin_dec xb (p0 - 1) (e_x e)) as [X|X].
      - destruct (in_bin_dec yb (q0 - 1) (e_y e)) as [Y|Y]; [left; exists (p0 - 1)%nat, (q0 - 1)%nat; split; auto|].
        right. intros (p & q & _ & G). apply Y. pose proof G as G'. apply bisect_bin in G'; auto. fold q0 in G'.
        replace (q0 - 1)%nat with q by lia. auto.
      - right. intros (p & q & G & _). apply X. pose proof G as G'. apply bisect_bin in G'; auto. fold p0 in G'.
        replace (p0 - 1)%nat with p by lia. auto. }
    destruct D as [(p & q & X & Y)|D].
    + assert (LX : (p < length xb - 1)%nat) by (apply bisect_bin in X; auto; lia).
      assert (LY : (q < length yb - 1)%nat) by (apply bisect_bin in Y; auto; lia).
      rewrite (sum_n_one _ _ p); auto.
      * rewrite (sum_n_one _ _ q); auto.
        -- replace (cell xb yb p q e) with (e_w e).
           ++ apply sum_in; auto. split; apply in_range_bin; eauto.
           ++ unfold cell. destruct (in_bin_dec xb p (e_x e)); [|contradiction].
              destruct (in_bin_dec yb q (e_y e)); [auto|contradiction].
        -- intros j Hj Nj. unfold cell. destruct (in_bin_dec xb p (e_x e)); auto.
           destruct (in_bin_dec yb j (e_y e)); auto. destruct Nj. eapply (in_bin_unique yb); eauto.
      * intros i Hi Ni. apply sum_n_zero. intros j Hj. unfold cell.
        destruct (in_bin_dec xb i (e_x e)); auto. destruct Ni. eapply (in_bin_unique xb); eauto.
    + rewrite sum_n_zero.
      * rewrite Rplus_0_l. apply sum_out; auto. intros [X Y].
        apply in_range_bin in X, Y; auto. destruct X as [p X], Y as [q Y]. apply D. exists p, q. split; auto.
      * intros i Hi. apply sum_n_zero. intros j Hj. unfold cell.
        destruct (in_bin_dec xb i (e_x e)); auto. destruct (in_bin_dec yb j (e_y e)); auto.
        destruct D. exists i, j. split; auto.
Qed.

(** ---- min_max ---- *)
Lemma py_min_spec l : forall m, (py_min l m = m \/ In (py_min l m) l) /\ py_min l m <= m /\
  forall x, In x l -> py_min l m <= x.
Proof.
  induction l as [|y l IH]; intros m; simpl; [split; [auto|split; [lra|contradiction]]|].
  destruct (IH (if rltb y m then y else m)) as (A & B & C).
  destruct (rltb y m) eqn:E; [apply rltb_true in E|apply rltb_false in E].
  - split; [destruct A as [-> | A]; auto|]. split; [lra|]. intros x [<-|H]; auto.
  - split; [destruct A as [A|A]; auto|]. split; [lra|]. intros x [<-|H]; auto. lra.
Qed.
Lemma py_max_spec l : forall m, (py_max l m = m \/ In (py_max l m) l) /\ m <= py_max l m /\
  forall x, In x l -> x <= py_max l m.
Proof.
  induction l as [|y l IH]; intros m; simpl; [split; [auto|split; [lra|contradiction]]|].
  destruct (IH (if rltb m y then y else m)) as (A & B & C).
  destruct (rltb m y) eqn:E; [apply rltb_true in E|apply rltb_false in E].
  - split; [destruct A as [-> | A]; auto|]. split; [lra|]. intros x [<-|H]; auto.
  - split; [destruct A as [A|A]; auto|]. split; [lra|]. intros x [<-|H]; auto. lra.
Qed.

(** The values with a weight that counts. *)
Definition heavy (xs ws : list R) : list R :=
  map fst (filter (fun xw => rltb (1 / 1000000) (snd xw)) (combine xs ws)).

Lemma mm_loop_fresh xs ws : forall pre suf new, xs = pre ++ suf -> length ws = length suf ->
  mm_loop false ws (length pre) xs new = inr (xs, new ++ heavy suf ws).
Proof.
  induction ws as [|w r IH]; intros pre suf new E L.
  - destruct suf; [|discriminate]. simpl. rewrite app_nil_r. reflexivity.
  - destruct suf as [|x suf]; [discriminate|]. injection L as L. cbn [mm_loop].
    assert (N : nth_error xs (length pre) = Some x).
    { subst. rewrite nth_error_app2 by lia. rewrite Nat.sub_diag. reflexivity. }
    assert (LP : S (length pre) = length (pre ++ [x])) by (rewrite app_length; simpl; lia).
    unfold heavy. cbn [combine filter]. cbn [snd]. destruct (rltb (1 / 1000000) w).
    + rewrite N, LP. rewrite (IH (pre ++ [x]) suf) by (auto; rewrite <- app_assoc; auto).
      rewrite <- app_assoc. reflexivity.
    + rewrite LP. rewrite (IH (pre ++ [x]) suf) by (auto; rewrite <- app_assoc; auto). reflexivity.
Qed.

(** The values that min_max looks at when the caller's list is safe. *)
Lemma min_max_cases xs ws margin xmin xmax : length ws = length xs \/ ws = [] ->
  exists sel, (length ws = length xs -> sel = heavy xs ws) /\ (ws = [] -> sel = xs) /\
    let lo := match sel with [] => 0 | y :: r => py_min r y end in
    let hi := match sel with [] => 0 | y :: r => py_max r y end in
    let lo1 := lo - (hi - lo) * margin in let hi1 := hi + (hi - lo) * margin in
    let small := rltb (hi1 - lo1) (1 / 1000000000) in
    min_max xs ws margin xmin xmax =
      inr (match xmin with Some a => a | None => if small then lo1 - 1 else lo1 end,
           match xmax with Some b => b | None => if small then hi1 + 1 else hi1 end, xs).
Proof.
  intros H. unfold min_max. destruct (Nat.eqb_spec (length ws) (length xs)) as [E|N]; cbn [negb].
  - exists (heavy xs ws). split; auto. split.
    { intros ->. destruct xs; [reflexivity|discriminate]. }
    pose proof (mm_loop_fresh xs ws [] xs [] eq_refl E) as M. cbn [length] in M. rewrite M. cbn [app].
    destruct (heavy xs ws); reflexivity.
  - destruct H as [H | ->]; [congruence|]. exists xs. split; [congruence|]. split; auto.
    cbn [mm_loop]. destruct xs; reflexivity.
Qed.

Lemma heavy_in xs ws x w : length ws = length xs -> In (x, w) (combine xs ws) -> 1 / 1000000 < w ->
  In x (heavy xs ws).
Proof.
  intros L H W. unfold heavy. apply in_map_iff. exists (x, w). split; auto. apply filter_In. split; auto.
  apply rltb_true. exact W.
Qed.

(** ---- multisort ---- *)
Lemma all_opt_some {A} (l : list (option A)) r : all_opt l = Some r <-> l = map Some r.
Proof.
  revert r. induction l as [|[x|] l IH]; intros r; simpl.
  - split; [intros E; injection E as <-; reflexivity|destruct r; [auto|discriminate]].
  - destruct (all_opt l) as [s|] eqn:E.
    + split.
      * intros F. injection F as <-. simpl. f_equal. apply IH. reflexivity.
      * destruct r as [|y r]; [discriminate|]. intros F. injection F as -> F.
        apply IH in F. congruence.
    + split; [discriminate|]. destruct r as [|y r]; [discriminate|]. intros F. injection F as -> F.
      apply IH in F. congruence.
  - split; [discriminate|]. destruct r; discriminate.
Qed.

Lemma rows_of_rect {A} (cols : list (list A)) n : table n cols ->
  exists rows, rows_of cols n = Some rows /\ length rows = n /\
    (forall r, In r rows -> length r = length cols) /\
    forall i r, nth_error rows i = Some r -> map Some r = row cols i.
Proof.
  intros T.
  assert (G : forall is, (forall i, In i is -> (i < n)%nat) ->
    exists rows, all_opt (map (fun i => all_opt (map (fun c => nth_error c i) cols)) is) = Some rows /\
      length rows = length is /\ (forall r, In r rows -> length r = length cols) /\
      forall k i r, nth_error is k = Some i -> nth_error rows k = Some r -> map Some r = row cols i).
  { induction is as [|i is IH]; intros H.
    - exists []. split; auto. split; auto. split; [contradiction|]. intros k; destruct k; discriminate.
    - destruct IH as (rows & E1 & E2 & E3 & E4); [intros; apply H; simpl; auto|].
      assert (R : exists r, all_opt (map (fun c => nth_error c i) cols) = Some r).
      { assert (Hi : (i < n)%nat) by (apply H; simpl; auto).
        clear -T Hi. induction cols as [|c cs IHc]; [exists []; reflexivity|]. simpl.
        destruct (nth_error c i) eqn:E.
        - destruct IHc as [s ->]; [intros d Hd; apply T; simpl; auto|]. eauto.
        - apply nth_error_None in E. rewrite (T c) in E by (simpl; auto). lia. }
      destruct R as [r R]. exists (r :: rows). simpl. rewrite R, E1. split; auto.
      pose proof R as R'. apply all_opt_some in R'. split; [congruence|]. split.
      + intros r' [<-|Hr]; auto. apply (f_equal (@length _)) in R'. rewrite !map_length in R'. auto.
      + intros k j r' Hk Hr. destruct k; simpl in *; [|eapply E4; eauto].
        injection Hk as <-. injection Hr as <-. symmetry. exact R'. }
  destruct (G (seq 0 n)) as (rows & E1 & E2 & E3 & E4).
  { intros i Hi. apply in_seq in Hi. lia. }
  exists rows. split; auto. rewrite seq_length in E2. split; auto. split; auto.
  intros i r Hr. apply (E4 i); auto.
  assert (i < n)%nat by (rewrite <- E2; apply nth_error_Some; congruence).
  rewrite (nth_error_nth' _ 0%nat) by (rewrite seq_length; auto). rewrite seq_nth by auto. reflexivity.
Qed.

Lemma column_length {A} (rows : list (list A)) i old : length (column rows i old) = length old.
Proof. revert old. induction rows; destruct old; simpl; auto. Qed.
Lemma column_nth {A} (rows : list (list A)) i : forall old, length old = length rows ->
  forall k r, nth_error rows k = Some r -> (i < length r)%nat ->
  nth_error (column rows i old) k = nth_error r i.
Proof.
  induction rows as [|r0 rows IH]; intros old L k r Hr Hi; [destruct k; discriminate|].
  destruct old as [|x old]; [discriminate|]. injection L as L. simpl.
  destruct k; simpl in *.
  - injection Hr as <-. rewrite (nth_error_nth' r0 x) by auto. reflexivity.
  - apply IH; auto.
Qed.

Lemma write_back_row {A} (rows cols : list (list A)) n : table n cols -> length rows = n ->
  (forall r, In r rows -> length r = length cols) ->
  length (write_back rows cols) = length cols /\ table n (write_back rows cols) /\
  forall i r, nth_error rows i = Some r -> row (write_back rows cols) i = map Some r.
Proof.
  intros T L H. unfold write_back.
  assert (LL : length (map (fun ic => column rows (fst ic) (snd ic)) (combine (seq 0 (length cols)) cols)) = length cols).
  { rewrite map_length, combine_length, seq_length. lia. }
  split; auto. split.
  - intros c Hc. apply in_map_iff in Hc. destruct Hc as ([i c0] & <- & Hc). simpl.
    rewrite column_length. apply T. eapply in_combine_r; eauto.
  - intros i r Hr. unfold row. rewrite map_map.
    assert (Lr : length r = length cols) by (apply H; eapply nth_error_In; eauto).
    assert (G : forall cs s k, (forall c, In c cs -> length c = n) -> length r = (s + k)%nat -> length cs = k ->
       map (fun x : nat * list A => nth_error (column rows (fst x) (snd x)) i) (combine (seq s k) cs)
       = map Some (skipn s r)).
    { induction cs as [|c cs IHc]; intros s k Hc Ls Lk.
      - subst k. simpl. rewrite skipn_all2 by (simpl in Ls; lia). reflexivity.
      - destruct k as [|k]; [discriminate|]. injection Lk as Lk. simpl.
        assert (Ls' : (s < length r)%nat) by lia.
        rewrite (column_nth rows s c ltac:(rewrite Hc by (simpl; auto); lia) i r Hr) by lia.
        destruct (nth_error r s) as [x|] eqn:Ex; [|apply nth_error_None in Ex; lia].
        rewrite (IHc (S s) k) by (auto; try lia; intros; apply Hc; simpl; auto).
        assert (SK : skipn s r = x :: skipn (S s) r).
        { clear -Ex. revert r Ex. induction s; intros r Ex; destruct r; simpl in *; try discriminate.
          - injection Ex as <-. reflexivity.
          - apply IHs; auto. }
        rewrite SK. reflexivity. }
    rewrite (G cols 0%nat (length cols)); auto.
Qed.

Lemma map_some_inj {A} (a b : list A) : map Some a = map Some b -> a = b.
Proof.
  revert b. induction a as [|x a IH]; intros [|y b] H; try discriminate; auto.
  injection H as -> H. f_equal. auto.
Qed.
