(** Proofs for histograms in double precision (C91). *)
From Coq Require Import Reals ZArith List Bool Arith Lia Lra Psatz Sorted.
From Flocq Require Import Core BinarySingleNaN Relative.
From Verif Require Import Num FloatModel MomentSpec FloatArith PyLibModel PyLibProofs Bin64Model Bin64Spec.
Import ListNotations.
Open Scope R_scope.

(** ---- comparisons ---- *)
Definition rlt (x y : R) : bool := if Rlt_dec x y then true else false.
Lemma rlt_true x y : rlt x y = true <-> x < y.
Proof. unfold rlt. destruct (Rlt_dec x y); split; intros; auto; discriminate. Qed.
Lemma rlt_false x y : rlt x y = false <-> y <= x.
Proof. unfold rlt. destruct (Rlt_dec x y); split; intros; auto; try discriminate; lra. Qed.
Lemma rlt_order : weak_order rlt.
Proof.
  split; intros.
  - apply rlt_false. lra.
  - apply rlt_true in H. apply rlt_false. lra.
  - rewrite rlt_false in *. lra.
Qed.

Lemma flt_finite (x y : b64) : fin x = true -> fin y = true -> flt x y = rlt (val x) (val y).
Proof.
  intros Fx Fy. rewrite (Bltb_correct _ _ x y Fx Fy). unfold rlt.
  destruct (Rlt_dec (val x) (val y)) as [H|H].
  - now apply Rlt_bool_true.
  - apply Rlt_bool_false. lra.
Qed.

(** ---- bisect ---- *)
Lemma bisect_map l (x : b64) : (forall y, In y l -> flt x y = rlt (val x) (val y)) ->
  bisect_right flt l x = bisect_right rlt (map val l) (val x).
Proof.
  intros H. unfold bisect_right. rewrite map_length. generalize (length l) at 1 3. intros fuel.
  generalize 0%nat (length l). induction fuel as [|f IH]; intros lo hi; [reflexivity|].
  cbn [bisect_right_loop]. destruct (lo <? hi)%nat; [|reflexivity]. cbv zeta.
  rewrite nth_error_map. destruct (nth_error l ((lo + hi) / 2)) as [y|] eqn:E; [|reflexivity].
  cbn [option_map]. rewrite <- (H y) by (eapply nth_error_In; exact E).
  destruct (flt x y); apply IH.
Qed.

Lemma bisect_all_left l (x : b64) : (forall y, In y l -> flt x y = true) -> bisect_right flt l x = 0%nat.
Proof.
  intros H. unfold bisect_right.
  assert (K : forall f lo hi, (hi <= length l)%nat -> (lo <= hi)%nat -> (hi - lo <= f)%nat ->
    bisect_right_loop flt l x f lo hi = lo).
  { induction f as [|f IH]; intros lo hi A B C; [reflexivity|]. cbn [bisect_right_loop].
    destruct (Nat.ltb_spec lo hi) as [L|L]; [|reflexivity]. cbv zeta.
    assert (M : (lo <= (lo + hi) / 2 < hi)%nat).
    { split; [apply Nat.div_le_lower_bound; lia|apply Nat.div_lt_upper_bound; lia]. }
    destruct (nth_error l ((lo + hi) / 2)) as [y|] eqn:E; [|reflexivity].
    rewrite (H y) by (eapply nth_error_In; exact E). apply IH; lia. }
  apply K; lia.
Qed.

Lemma bisect_all_right l (x : b64) : (forall y, In y l -> flt x y = false) ->
  bisect_right flt l x = length l.
Proof.
  intros H. unfold bisect_right.
  assert (K : forall f lo hi, (hi <= length l)%nat -> (lo <= hi)%nat -> (hi - lo <= f)%nat ->
    bisect_right_loop flt l x f lo hi = hi).
  { induction f as [|f IH]; intros lo hi A B C; [cbn; lia|]. cbn [bisect_right_loop].
    destruct (Nat.ltb_spec lo hi) as [L|L]; [|lia]. cbv zeta.
    assert (M : (lo <= (lo + hi) / 2 < hi)%nat).
    { split; [apply Nat.div_le_lower_bound; lia|apply Nat.div_lt_upper_bound; lia]. }
    destruct (nth_error l ((lo + hi) / 2)) as [y|] eqn:E.
    - rewrite (H y) by (eapply nth_error_In; exact E). apply IH; lia.
    - apply nth_error_None in E. lia. }
  apply K; lia.
Qed.

Lemma rising_finite l : rising l -> forall x, In x l -> finite x = true.
Proof.
  induction 1; intros z Z; [destruct Z|destruct Z as [<-|[]]; assumption|].
  destruct Z as [<-|Z]; [assumption|]. now apply IHrising.
Qed.

Lemma rising_tail x l : rising (x :: l) -> rising l.
Proof. inversion 1; subst; [constructor|assumption]. Qed.

Lemma rising_head x l : rising (x :: l) -> forall y, In y l -> value x <= value y.
Proof.
  revert x. induction l as [|z l IH]; intros x H y Y; [destruct Y|].
  inversion H; subst. destruct Y as [<-|Y]; [assumption|].
  eapply Rle_trans; [eassumption|]. now apply IH.
Qed.

Lemma rising_sorted l : rising l -> StronglySorted (le rlt) (map value l).
Proof.
  induction l as [|x l IH]; intros H; cbn [map]; constructor.
  - apply IH. eapply rising_tail; exact H.
  - rewrite Forall_forall. intros v V. apply in_map_iff in V as (y & <- & Y).
    unfold le. apply rlt_false. now apply (rising_head x l).
Qed.

Lemma falls_true lo hi x : falls lo hi x = true <-> finite x = true /\ value lo <= value x < value hi.
Proof.
  unfold falls. destruct (Rle_dec (value lo) (value x)), (Rlt_dec (value x) (value hi)), (finite x); cbn [andb];
    intuition (try discriminate; try lra).
Qed.

(** What the two comparisons of the loop decide. *)
Lemma bisect_bin l p (x : b64) : rising l ->
  in_bin l p x = ((1 <=? bisect_right flt l x) && (bisect_right flt l x <? length l) &&
                  (bisect_right flt l x - 1 =? p))%nat%bool.
Proof.
  intros S. apply eq_true_iff_eq. rewrite !andb_true_iff, Nat.leb_le, Nat.ltb_lt, Nat.eqb_eq.
  destruct (finite x) eqn:F.
  - assert (E : bisect_right flt l x = bisect_right rlt (map value l) (value x)).
    { apply bisect_map. intros y Y. apply flt_finite; [exact F|]. now apply (rising_finite l). }
    rewrite E. destruct (bisect_right_spec rlt rlt_order (map value l) (value x) (rising_sorted l S)) as (A & B & C).
    rewrite map_length in A. set (r := bisect_right rlt (map value l) (value x)) in *.
    unfold in_bin. split.
    + destruct (nth_error l p) as [a|] eqn:Ea; [|discriminate].
      destruct (nth_error l (Datatypes.S p)) as [b|] eqn:Eb; [|discriminate].
      rewrite falls_true. intros (_ & H1 & H2).
      assert (L : (Datatypes.S p < length l)%nat) by (apply nth_error_Some; congruence).
      assert (~ (r <= p)%nat).
      { intros G. specialize (C _ (value a) G (map_nth_error value _ _ Ea)).
        apply rlt_true in C. lra. }
      assert (~ (Datatypes.S p < r)%nat).
      { intros G. specialize (B _ (value b) G (map_nth_error value _ _ Eb)).
        apply rlt_false in B. lra. }
      lia.
    + intros [[L1 L2] E1].
      destruct (nth_error l p) as [a|] eqn:Ea; [|apply nth_error_None in Ea; lia].
      destruct (nth_error l (Datatypes.S p)) as [b|] eqn:Eb; [|apply nth_error_None in Eb; lia].
      rewrite falls_true. split; [exact F|]. split.
      * assert (Hp : (p < r)%nat) by lia. specialize (B _ (value a) Hp (map_nth_error value _ _ Ea)). apply rlt_false in B. lra.
      * assert (Hp : (r <= Datatypes.S p)%nat) by lia. specialize (C _ (value b) Hp (map_nth_error value _ _ Eb)). apply rlt_true in C. lra.
  - assert (N : in_bin l p x = false).
    { unfold in_bin, falls. rewrite F. destruct (nth_error l p), (nth_error l (Datatypes.S p)); reflexivity. }
    rewrite N. split; [discriminate|].
    assert (D : bisect_right flt l x = 0%nat \/ bisect_right flt l x = length l).
    { destruct x as [s|[|]| |s m e H]; try discriminate F.
      - left. apply bisect_all_left. intros y Y. pose proof (rising_finite l S y Y) as G.
        destruct y as [s|s| |[|] m e H]; try discriminate G; reflexivity.
      - right. apply bisect_all_right. intros y Y. pose proof (rising_finite l S y Y) as G.
        destruct y as [s|s| |[|] m e H]; try discriminate G; reflexivity.
      - right. apply bisect_all_right. intros y Y. destruct y; reflexivity. }
    destruct D as [-> | ->]; lia.
Qed.

(** ---- the table ---- *)
Definition shape (n k : nat) (m : list (list b64)) : Prop :=
  length m = n /\ forall row, In row m -> length row = k.

Lemma nth_error_set_nth {A} (l : list A) i x j : (i < length l)%nat ->
  nth_error (set_nth l i x) j = if Nat.eqb i j then Some x else nth_error l j.
Proof.
  revert i j. induction l as [|y l IH]; intros i j L; [cbn in L; lia|].
  destruct i as [|i], j as [|j]; cbn [set_nth nth_error Nat.eqb]; try reflexivity.
  apply IH. cbn in L. lia.
Qed.

Lemma set_nth_len {A} (l : list A) i x : length (set_nth l i x) = length l.
Proof. revert i. induction l as [|y l IH]; intros [|i]; cbn; auto. Qed.

Lemma set_nth_in {A} (l : list A) i x y : In y (set_nth l i x) -> y = x \/ In y l.
Proof.
  revert i. induction l as [|z l IH]; intros [|i] H; cbn in H; auto.
  - destruct H as [H|H]; [left; now symmetry|right; now right].
  - destruct H as [<-|H]; [right; now left|]. destruct (IH i H); [now left|right; now right].
Qed.

Lemma cell_shape n k m p q : shape n k m -> (p < n)%nat -> (q < k)%nat -> exists v, cell m p q = Some v.
Proof.
  intros [L1 L2] P Q. unfold cell. destruct (nth_error m p) as [row|] eqn:E.
  - destruct (nth_error row q) as [v|] eqn:E2; [eauto|]. apply nth_error_None in E2.
    rewrite (L2 row) in E2 by (eapply nth_error_In; exact E). lia.
  - apply nth_error_None in E. lia.
Qed.

Lemma add_to_cell n k m i j w v : shape n k m -> (i < n)%nat -> (j < k)%nat ->
  cell m i j = Some v -> forall p q,
  cell (add_to m i j w) p q = if (Nat.eqb i p && Nat.eqb j q)%bool then Some (fadd v w) else cell m p q.
Proof.
  intros [L1 L2] I J E p q. unfold cell in *. unfold add_to.
  destruct (nth_error m i) as [row|] eqn:R; [|discriminate]. rewrite E.
  assert (Lr : length row = k) by (apply L2; eapply nth_error_In; exact R).
  rewrite nth_error_set_nth by lia. destruct (Nat.eqb_spec i p) as [<-|N]; cbn [andb].
  - rewrite nth_error_set_nth by lia. rewrite R. reflexivity.
  - reflexivity.
Qed.

Lemma add_to_shape n k m i j w : shape n k m -> shape n k (add_to m i j w).
Proof.
  intros [L1 L2]. unfold add_to. destruct (nth_error m i) as [row|] eqn:R; [|now split].
  destruct (nth_error row j) as [x|] eqn:X; [|now split].
  split; [now rewrite set_nth_len|]. intros r H. apply set_nth_in in H as [-> |H]; [|auto].
  rewrite set_nth_len. apply L2. eapply nth_error_In; exact R.
Qed.

Lemma zeros_shape n k : shape n k (repeat (repeat fzero k) n).
Proof. split; [apply repeat_length|]. intros row H. apply repeat_spec in H. subst. apply repeat_length. Qed.

Lemma nth_error_repeat' {A} (x : A) n i : (i < n)%nat -> nth_error (repeat x n) i = Some x.
Proof. revert i. induction n as [|n IH]; intros [|i] H; cbn; try lia; auto. apply IH. lia. Qed.

Lemma zeros_cell n k p q : (p < n)%nat -> (q < k)%nat -> cell (repeat (repeat fzero k) n) p q = Some fzero.
Proof. intros P Q. unfold cell. rewrite nth_error_repeat' by exact P. now apply nth_error_repeat'. Qed.

(** ---- the loop ---- *)
Fixpoint events (xs ys ws : list b64) : list Event :=
  match xs, ys, ws with
  | x :: xr, y :: yr, w :: wr => {| ex := x; ey := y; ew := w |} :: events xr yr wr
  | _, _, _ => []
  end.

Definition add_all (l : list Event) (z : b64) : b64 := fold_left (fun s e => fadd s (ew e)) l z.

Lemma fill_spec xb yb : rising xb -> rising yb -> forall xs ys ws m,
  length ys = length xs -> length ws = length xs -> shape (length xb - 1) (length yb - 1) m ->
  exists m', fill xb yb xs ys ws m = inr m' /\ shape (length xb - 1) (length yb - 1) m' /\
    forall p q v, (p < length xb - 1)%nat -> (q < length yb - 1)%nat -> cell m p q = Some v ->
      cell m' p q = Some (add_all (filter (in_cell xb yb p q) (events xs ys ws)) v).
Proof.
  intros SX SY. induction xs as [|x xr IH]; intros ys ws m Ly Lw S.
  - exists m. split; [reflexivity|]. split; [exact S|]. intros p q v _ _ E. exact E.
  - destruct ys as [|y yr]; [discriminate|]. destruct ws as [|w wr]; [discriminate|].
    injection Ly as Ly. injection Lw as Lw. cbn [fill tl].
    set (p0 := bisect_right flt xb x). set (q0 := bisect_right flt yb y).
    destruct (_ && _)%bool eqn:C.
    + pose proof C as C'.
      rewrite !andb_true_iff, !Nat.leb_le, !Nat.ltb_lt in C. destruct C as [[[C1 C2] C3] C4].
      assert (P0 : (p0 - 1 < length xb - 1)%nat) by lia.
      assert (Q0 : (q0 - 1 < length yb - 1)%nat) by lia.
      destruct (cell_shape _ _ _ _ _ S P0 Q0) as [v0 V0].
      destruct (IH yr wr (add_to m (p0 - 1) (q0 - 1) w) Ly Lw (add_to_shape _ _ _ _ _ _ S)) as (m' & E & S' & H).
      exists m'. split; [exact E|]. split; [exact S'|]. intros p q v Hp Hq V.
      cbn [events filter]. unfold in_cell at 1. cbn [ex ey]. rewrite (bisect_bin xb p x SX), (bisect_bin yb q y SY).
      fold p0. fold q0.
      assert (L1 : (1 <=? p0)%nat = true) by (apply Nat.leb_le; lia).
      assert (L2 : (p0 <? length xb)%nat = true) by (apply Nat.ltb_lt; lia).
      assert (L3 : (1 <=? q0)%nat = true) by (apply Nat.leb_le; lia).
      assert (L4 : (q0 <? length yb)%nat = true) by (apply Nat.ltb_lt; lia).
      rewrite L1, L2, L3, L4. cbn [andb].
      pose proof (add_to_cell _ _ _ _ _ w _ S P0 Q0 V0 p q) as A.
      destruct (Nat.eqb_spec (p0 - 1) p) as [Ep|Np]; cbn [andb] in *.
      * destruct (Nat.eqb_spec (q0 - 1) q) as [Eq|Nq].
        -- rewrite (H p q (fadd v0 w) Hp Hq A). cbn [add_all fold_left ew]. f_equal.
           rewrite Ep, Eq, V in V0. injection V0 as <-. reflexivity.
        -- apply H; [exact Hp|exact Hq|]. now rewrite A.
      * apply H; [exact Hp|exact Hq|]. now rewrite A.
    + destruct (IH yr wr m Ly Lw S) as (m' & E & S' & H).
      exists m'. split; [exact E|]. split; [exact S'|]. intros p q v Hp Hq V.
      cbn [events filter]. unfold in_cell at 1. cbn [ex ey]. rewrite (bisect_bin xb p x SX), (bisect_bin yb q y SY).
      fold p0. fold q0.
      assert (X : (((1 <=? p0) && (p0 <? length xb) && (p0 - 1 =? p)) &&
                   ((1 <=? q0) && (q0 <? length yb) && (q0 - 1 =? q)))%nat%bool = false).
      { apply not_true_iff_false. rewrite !andb_true_iff. intros [[[A1 A2] _] [[A3 A4] _]].
        rewrite A1, A2, A3, A4 in C. discriminate. }
      rewrite X. now apply H.
Qed.

Lemma events_len xs ys ws : length ys = length xs -> length ws = length xs -> length (events xs ys ws) = length xs.
Proof.
  revert ys ws. induction xs as [|x xs IH]; intros [|y ys] [|w ws] A B; try discriminate; [reflexivity|].
  cbn [length] in A, B. cbn [events length]. f_equal. apply IH; lia.
Qed.

Lemma events_weights xs ys ws e : In e (events xs ys ws) -> In (ew e) ws.
Proof.
  revert ys ws. induction xs as [|x xs IH]; intros [|y ys] [|w ws] H; try destruct H.
  - subst. now left.
  - right. eapply IH. exact H.
Qed.

Lemma filter_len {A} (f : A -> bool) l : (length (filter f l) <= length l)%nat.
Proof. induction l as [|x l IH]; cbn; [lia|]. destruct (f x); cbn; lia. Qed.

(** ---- sums of ones are exact ---- *)
Lemma int_format z : (Z.abs z <= 2 ^ 53)%Z -> generic_format radix2 (FLT_exp (SpecFloat.emin prec64 emax64) prec64) (IZR z).
Proof.
  intros H. destruct (Z.eq_dec (Z.abs z) (2 ^ 53)) as [E|N].
  - assert (A : Rabs (IZR z) = pow2 53) by (rewrite <- abs_IZR, E; reflexivity).
    destruct (Rcase_abs (IZR z)) as [L|G].
    + rewrite Rabs_left in A by exact L. replace (IZR z) with (- pow2 53) by lra.
      apply generic_format_opp, generic_format_bpow. unfold FLT_exp, SpecFloat.emin, prec64, emax64. lia.
    + rewrite Rabs_right in A by exact G. rewrite A.
      apply generic_format_bpow. unfold FLT_exp, SpecFloat.emin, prec64, emax64. lia.
  - apply generic_format_FLT. exists (Float radix2 z 0).
    + unfold F2R. cbn [Fnum Fexp bpow]. ring.
    + cbn [Fnum]. change (radix2 ^ prec64)%Z with (2 ^ 53)%Z. lia.
    + cbn [Fexp]. unfold SpecFloat.emin, prec64, emax64. lia.
Qed.

Lemma rnd_int z : (Z.abs z <= 2 ^ 53)%Z -> rnd (IZR z) = IZR z.
Proof. intros H. apply round_generic; [apply valid_rnd_N|]. now apply int_format. Qed.

Lemma int_small z : (Z.abs z <= 2 ^ 53)%Z -> Rabs (IZR z) <= pow2 53.
Proof. intros H. rewrite <- abs_IZR. apply IZR_le in H. exact H. Qed.

Lemma below_emax r : Rabs r <= pow2 1000 -> Rabs (rnd r) < pow2 emax64.
Proof. intros H. apply (rnd_bound r 1000); [lia|exact H]. Qed.

Lemma ofZ_exact z : (Z.abs z <= 2 ^ 53)%Z -> fin (b64_of_Z z) = true /\ val (b64_of_Z z) = IZR z.
Proof.
  intros H. unfold b64_of_Z.
  pose proof (binary_normalize_correct prec64 emax64 _ _ mode_NE z 0 false) as C. cbv zeta in C.
  assert (E : F2R (Float radix2 z 0) = IZR z) by (unfold F2R; cbn [Fnum Fexp bpow]; ring).
  rewrite E in C. rewrite Rlt_bool_true in C.
  - destruct C as (C1 & C2 & _). split; [assumption|]. rewrite C1. exact (rnd_int z H).
  - apply below_emax. eapply Rle_trans; [now apply int_small|]. apply bpow_le. lia.
Qed.

Lemma one_val : fin fone = true /\ val fone = 1.
Proof. apply (ofZ_exact 1). cbn. lia. Qed.

Lemma add_val (x y : b64) : fin x = true -> fin y = true -> Rabs (val x + val y) <= pow2 1000 ->
  fin (fadd x y) = true /\ val (fadd x y) = rnd (val x + val y).
Proof.
  intros Fx Fy H. pose proof (Bplus_correct prec64 emax64 _ _ mode_NE x y Fx Fy) as C.
  rewrite Rlt_bool_true in C by (apply below_emax, H).
  destruct C as (C1 & C2 & _). split; [assumption|exact C1].
Qed.

Lemma sub_val (x y : b64) : fin x = true -> fin y = true -> Rabs (val x - val y) <= pow2 1000 ->
  fin (fsub x y) = true /\ val (fsub x y) = rnd (val x - val y).
Proof.
  intros Fx Fy H. pose proof (Bminus_correct prec64 emax64 _ _ mode_NE x y Fx Fy) as C.
  rewrite Rlt_bool_true in C by (apply below_emax, H).
  destruct C as (C1 & C2 & _). split; [assumption|exact C1].
Qed.

Lemma mul_val (x y : b64) : fin x = true -> fin y = true -> Rabs (val x * val y) <= pow2 1000 ->
  fin (fmul x y) = true /\ val (fmul x y) = rnd (val x * val y).
Proof.
  intros Fx Fy H. pose proof (Bmult_correct prec64 emax64 _ _ mode_NE x y) as C.
  rewrite Rlt_bool_true in C by (apply below_emax, H).
  destruct C as (C1 & C2 & _). rewrite Fx, Fy in C2. split; [assumption|exact C1].
Qed.

Lemma div_val (x y : b64) : fin x = true -> val y <> 0 -> Rabs (val x / val y) <= pow2 1000 ->
  fin (fdiv x y) = true /\ val (fdiv x y) = rnd (val x / val y).
Proof.
  intros Fx Y H. pose proof (Bdiv_correct prec64 emax64 _ _ mode_NE x y Y) as C.
  rewrite Rlt_bool_true in C by (apply below_emax, H).
  destruct C as (C1 & C2 & _). rewrite Fx in C2. split; [assumption|exact C1].
Qed.

Lemma add_int (x y : b64) a b : fin x = true -> fin y = true -> val x = IZR a -> val y = IZR b ->
  (Z.abs (a + b) <= 2 ^ 53)%Z -> fin (fadd x y) = true /\ val (fadd x y) = IZR (a + b).
Proof.
  intros Fx Fy Vx Vy H. destruct (add_val x y Fx Fy) as [A B].
  - rewrite Vx, Vy, <- plus_IZR. eapply Rle_trans; [now apply int_small|]. apply bpow_le. lia.
  - split; [exact A|]. rewrite B, Vx, Vy, <- plus_IZR. now apply rnd_int.
Qed.

Lemma add_all_ones l : (forall e, In e l -> ew e = fone) -> forall z k,
  fin z = true -> val z = IZR k -> (0 <= k)%Z -> (k + Z.of_nat (length l) <= 2 ^ 53)%Z ->
  fin (add_all l z) = true /\ val (add_all l z) = IZR (k + Z.of_nat (length l)).
Proof.
  induction l as [|e l IH]; intros H z k F V K L.
  - cbn [add_all fold_left length]. rewrite Z.add_0_r. split; assumption.
  - change (add_all (e :: l) z) with (add_all l (fadd z (ew e))).
    rewrite (H e) by (left; reflexivity). destruct one_val as [F1 V1]. cbn [length] in L.
    destruct (add_int z fone k 1 F F1 V V1) as [F2 V2]; [lia|].
    destruct (IH (fun e' I => H e' (or_intror I)) (fadd z fone) (k + 1)%Z F2 V2) as [F3 V3]; [lia|lia|].
    split; [exact F3|]. rewrite V3. f_equal. cbn [length]. lia.
Qed.

(** ---- edges ---- *)
Lemma rnd_le x y : x <= y -> rnd x <= rnd y.
Proof. apply round_le; auto with typeclass_instances. Qed.
Lemma rnd_val (x : b64) : rnd (val x) = val x.
Proof. apply round_generic; [auto with typeclass_instances|]. apply generic_format_B2R. Qed.
Lemma rnd_0 : rnd 0 = 0.
Proof. apply round_0. auto with typeclass_instances. Qed.
Lemma rnd_abs x e : (-1000 <= e <= 1000)%Z -> Rabs x <= pow2 e -> Rabs (rnd x) <= pow2 e.
Proof.
  intros He Hx. apply abs_round_le_generic; auto with typeclass_instances.
  apply generic_format_bpow. unfold FLT_exp, SpecFloat.emin, prec64, emax64. lia.
Qed.

Section Edges.
  Variables (lo hi : b64) (n : Z).
  Hypothesis (Fl : fin lo = true) (Fh : fin hi = true) (L : val lo <= val hi).
  Hypothesis (Bl : Rabs (val lo) <= pow2 900) (Bh : Rabs (val hi) <= pow2 900).
  Hypothesis (N : (1 <= n <= 2 ^ 50)%Z).

  Definition width : b64 := fdiv (fsub hi lo) (b64_of_Z n).
  Definition edge (i : nat) : b64 := fadd lo (fmul width (b64_of_Z (Z.of_nat i))).

  Lemma p901 : pow2 901 = 2 * pow2 900.
  Proof. change 901%Z with (1 + 900)%Z. rewrite bpow_plus. reflexivity. Qed.

  Lemma span_abs : Rabs (val hi - val lo) <= pow2 901.
  Proof.
    rewrite p901. unfold Rminus. eapply Rle_trans; [apply Rabs_triang|]. rewrite Rabs_Ropp. lra.
  Qed.

  Lemma span_val : fin (fsub hi lo) = true /\ val (fsub hi lo) = rnd (val hi - val lo).
  Proof.
    apply sub_val; auto. eapply Rle_trans; [apply span_abs|]. apply bpow_le. lia.
  Qed.

  Lemma n_val : fin (b64_of_Z n) = true /\ val (b64_of_Z n) = IZR n.
  Proof. apply ofZ_exact. lia. Qed.

  Lemma n_pos : 1 <= IZR n.
  Proof. apply IZR_le. lia. Qed.

  Lemma quot_abs x e : Rabs x <= pow2 e -> Rabs (x / IZR n) <= pow2 e.
  Proof.
    intros H. pose proof n_pos. unfold Rdiv. rewrite Rabs_mult.
    rewrite (Rabs_right (/ IZR n)) by (apply Rle_ge; left; apply Rinv_0_lt_compat; lra).
    assert (/ IZR n <= 1) by (rewrite <- Rinv_1; apply Rinv_le_contravar; lra).
    assert (0 < / IZR n) by (apply Rinv_0_lt_compat; lra).
    pose proof (Rabs_pos x). nra.
  Qed.

  Lemma width_val : fin width = true /\ val width = rnd (rnd (val hi - val lo) / IZR n) /\
    0 <= val width /\ Rabs (val width) <= pow2 901.
  Proof.
    destruct span_val as [F V]. destruct n_val as [F2 V2]. pose proof n_pos.
    assert (A : Rabs (rnd (val hi - val lo) / IZR n) <= pow2 901).
    { apply quot_abs, rnd_abs; [lia|apply span_abs]. }
    destruct (div_val (fsub hi lo) (b64_of_Z n) F) as [F3 V3].
    - rewrite V2. lra.
    - rewrite V, V2. eapply Rle_trans; [exact A|]. apply bpow_le. lia.
    - rewrite V, V2 in V3. unfold width. split; [exact F3|]. split; [exact V3|]. rewrite V3. split.
      + rewrite <- rnd_0. apply rnd_le.
        apply Rmult_le_pos; [|left; apply Rinv_0_lt_compat; lra].
        rewrite <- rnd_0. apply rnd_le. lra.
      + apply rnd_abs; [lia|exact A].
  Qed.

  Lemma i_val i : (Z.of_nat i <= n)%Z -> fin (b64_of_Z (Z.of_nat i)) = true /\
    val (b64_of_Z (Z.of_nat i)) = INR i /\ 0 <= INR i <= pow2 50.
  Proof.
    intros I. destruct (ofZ_exact (Z.of_nat i)) as [A B]; [lia|]. split; [exact A|].
    rewrite B, <- INR_IZR_INZ. split; [reflexivity|]. split; [apply pos_INR|].
    rewrite INR_IZR_INZ. change (pow2 50) with (IZR (2 ^ 50)). apply IZR_le. lia.
  Qed.

  Lemma step_val i : (Z.of_nat i <= n)%Z ->
    fin (fmul width (b64_of_Z (Z.of_nat i))) = true /\
    val (fmul width (b64_of_Z (Z.of_nat i))) = rnd (val width * INR i) /\
    Rabs (val width * INR i) <= pow2 951.
  Proof.
    intros I. destruct width_val as (F & V & P & A). destruct (i_val i I) as (F2 & V2 & P2).
    assert (B : Rabs (val width * INR i) <= pow2 951).
    { rewrite Rabs_mult. change 951%Z with (901 + 50)%Z. rewrite bpow_plus.
      apply Rmult_le_compat; [apply Rabs_pos|apply Rabs_pos|exact A|]. rewrite Rabs_right; lra. }
    destruct (mul_val width (b64_of_Z (Z.of_nat i)) F F2) as [F3 V3].
    - rewrite V2. eapply Rle_trans; [exact B|]. apply bpow_le. lia.
    - rewrite V2 in V3. auto.
  Qed.

  Lemma edge_val i : (Z.of_nat i <= n)%Z ->
    fin (edge i) = true /\ val (edge i) = rnd (val lo + rnd (val width * INR i)).
  Proof.
    intros I. destruct (step_val i I) as (F & V & A).
    destruct (add_val lo (fmul width (b64_of_Z (Z.of_nat i))) Fl F) as [F2 V2].
    - rewrite V. eapply Rle_trans; [apply Rabs_triang|].
      apply Rle_trans with (pow2 951 + pow2 951).
      + apply Rplus_le_compat; [eapply Rle_trans; [exact Bl|apply bpow_le; lia]|]. apply rnd_abs; [lia|exact A].
      + replace (pow2 951 + pow2 951) with (pow2 1 * pow2 951) by (simpl (pow2 1); lra).
        rewrite <- bpow_plus. apply bpow_le. lia.
    - rewrite V in V2. split; assumption.
  Qed.

  Lemma edge_le i j : (i <= j)%nat -> (Z.of_nat j <= n)%Z -> val (edge i) <= val (edge j).
  Proof.
    intros I J. destruct (edge_val i) as [_ ->]; [lia|]. destruct (edge_val j) as [_ ->]; [lia|].
    apply rnd_le. apply Rplus_le_compat_l. apply rnd_le. apply Rmult_le_compat_l; [apply width_val|].
    now apply le_INR.
  Qed.

  Lemma edge_0 : val (edge 0) = val lo.
  Proof.
    destruct (edge_val 0) as [_ ->]; [lia|]. cbn [INR]. rewrite Rmult_0_r, rnd_0, Rplus_0_r. apply rnd_val.
  Qed.

  Lemma rnd_any x : exists d e, Rabs d <= u /\ Rabs e <= pow2 (-1075) /\ rnd x = x * (1 + d) + e.
  Proof.
    destruct (error_N_FLT radix2 (SpecFloat.emin prec64 emax64) prec64 prec64_gt (fun z => negb (Z.even z)) x)
      as (d & e & Hd & He & _ & E).
    exists d, e. split; [|split; [|exact E]].
    - eapply Rle_trans; [exact Hd|]. unfold u. simpl. lra.
    - eapply Rle_trans; [exact He|]. right. 
      change (-1075)%Z with (-1 + SpecFloat.emin prec64 emax64)%Z. rewrite bpow_plus. simpl (pow2 (-1)). lra.
  Qed.

  (** The error of an edge. *)
  Lemma edge_error i : (Z.of_nat i <= n)%Z ->
    Rabs (val (edge i) - (val lo + (val hi - val lo) * (INR i / IZR n))) <=
    8 * u * (Rabs (val lo) + Rabs (val hi)) + pow2 (-1000).
  Proof.
    intros I. destruct (edge_val i I) as [_ E]. rewrite E.
    destruct (i_val i I) as (_ & _ & Pi). pose proof n_pos as Pn.
    set (M := Rabs (val lo) + Rabs (val hi)).
    set (D := val hi - val lo). set (f := INR i / IZR n).
    assert (Hf : 0 <= f <= 1).
    { unfold f. split.
      - apply Rmult_le_pos; [lra|left; apply Rinv_0_lt_compat; lra].
      - apply Rmult_le_reg_r with (IZR n); [lra|]. unfold Rdiv. rewrite Rmult_assoc, Rinv_l by lra.
        rewrite Rmult_1_r, Rmult_1_l, INR_IZR_INZ. now apply IZR_le. }
    assert (HD : 0 <= D <= M).
    { unfold D, M. split; [lra|]. pose proof (Rle_abs (val hi)). pose proof (Rle_abs (- val lo)).
      rewrite Rabs_Ropp in *. lra. }
    assert (Hl : Rabs (val lo + D * f) <= M).
    { apply Rabs_le. unfold D, M in *. pose proof (Rle_abs (val hi)). pose proof (Rle_abs (val lo)).
      pose proof (Rle_abs (- val lo)). pose proof (Rle_abs (- val hi)). rewrite Rabs_Ropp in *.
      assert (0 <= (val hi - val lo) * f <= val hi - val lo) by nra. 
      pose proof (Rabs_pos (val lo)). pose proof (Rabs_pos (val hi)). lra. }
    destruct (rnd_plus hi (Bopp lo)) as (d1 & H1 & E1).
    assert (E1' : rnd D = D * (1 + d1)).
    { rewrite B2R_Bopp in E1. exact E1. }
    destruct width_val as (_ & W & _). fold D in W. rewrite E1' in W.
    destruct (rnd_any (D * (1 + d1) / IZR n)) as (d2 & e2 & H2 & G2 & E2). rewrite E2 in W.
    destruct (rnd_any (val width * INR i)) as (d3 & e3 & H3 & G3 & E3).
    destruct (step_val i I) as (_ & Vs & _).
    destruct (rnd_plus lo (fmul width (b64_of_Z (Z.of_nat i)))) as (d4 & H4 & E4).
    rewrite Vs in E4. rewrite E4, E3, W.
    apply Rabs_le_inv in H1, H2, H3, H4, G2, G3. pose proof u_pos as Pu. pose proof u_small as Su.
    (* the exact step and the one computed *)
    set (t := D * f) in *.
    replace ((D * (1 + d1) / IZR n * (1 + d2) + e2) * INR i * (1 + d3) + e3)
      with (t * ((1 + d1) * (1 + d2) * (1 + d3)) + (e2 * INR i * (1 + d3) + e3))
      by (unfold t, f; field; lra).
    set (k := (1 + d1) * (1 + d2) * (1 + d3)).
    set (z := e2 * INR i * (1 + d3) + e3).
    assert (Hk : -4 * u <= k - 1 <= 4 * u).
    { unfold k.
      assert (K2 : -(5/2) * u <= (1 + d1) * (1 + d2) - 1 <= 5/2 * u).
      { assert (-u*u <= d1 * d2 <= u*u) by nra. assert (u * u <= /1000 * u) by nra. nra. }
      set (v := (1 + d1) * (1 + d2)) in *. assert (- (5/2*u)*u <= (v - 1) * d3 <= (5/2*u) * u) by nra.
      assert (u * u <= /1000 * u) by nra. nra. }
    assert (Hz : Rabs z <= pow2 (-1010)).
    { unfold z. eapply Rle_trans; [apply Rabs_triang|].
      assert (Z1 : Rabs (e2 * INR i * (1 + d3)) <= pow2 (-1075) * pow2 50 * 2).
      { rewrite !Rabs_mult. apply Rmult_le_compat; [apply Rmult_le_pos; apply Rabs_pos|apply Rabs_pos| |].
        - apply Rmult_le_compat; [apply Rabs_pos|apply Rabs_pos|now apply Rabs_le|].
          rewrite Rabs_right by lra. apply Pi.
        - rewrite Rabs_right; lra. }
      assert (Z2 : Rabs e3 <= pow2 (-1075)) by now apply Rabs_le.
      assert (Q1 : pow2 (-1075) * pow2 50 * 2 = pow2 (-1024)).
      { change 2 with (pow2 1). rewrite <- !bpow_plus. reflexivity. }
      rewrite Q1 in Z1.
      assert (Q2 : pow2 (-1024) + pow2 (-1024) = pow2 (-1023)).
      { replace (pow2 (-1024) + pow2 (-1024)) with (pow2 1 * pow2 (-1024)) by (simpl (pow2 1); lra).
        rewrite <- bpow_plus. reflexivity. }
      assert (Q3 : pow2 (-1075) <= pow2 (-1024)) by (apply bpow_le; lia).
      assert (Q4 : pow2 (-1023) <= pow2 (-1010)) by (apply bpow_le; lia). lra. }
    assert (Ht : 0 <= t <= M) by (unfold t; nra).
    assert (P10 : pow2 (-1000) = 1024 * pow2 (-1010)).
    { change 1024 with (pow2 10). rewrite <- bpow_plus. reflexivity. }
    pose proof (bpow_gt_0 radix2 (-1010)) as Pz. apply Rabs_le_inv in Hl, Hz.
    rewrite P10. set (o := pow2 (-1010)) in *. clearbody o k z t M D f.
    apply Rabs_le.
    replace ((val lo + (t * k + z)) * (1 + d4) - (val lo + t))
      with (t * (k - 1) * (1 + d4) + z * (1 + d4) + (val lo + t) * d4) by ring.
    set (q := val lo + t) in *. clearbody q.
    assert (A1 : - (4 * u) * M <= t * (k - 1) <= 4 * u * M) by nra.
    set (a := t * (k - 1)) in *. clearbody a.
    assert (A2 : - (5 * u) * M <= a * (1 + d4) <= 5 * u * M).
    { assert (- (4 * u * M) * u <= a * d4 <= (4 * u * M) * u) by nra.
      assert (0 <= u * M) by nra. nra. }
    assert (A3 : - u * M <= q * d4 <= u * M) by nra.
    assert (A4 : - 2 * o <= z * (1 + d4) <= 2 * o) by nra.
    assert (0 <= u * M) by nra. lra.
  Qed.
End Edges.

(** ---- the list of edges ---- *)
Lemma edges_list lo hi n : (1 <= n)%Z -> edges lo hi n = inr (map (edge lo hi n) (seq 0 (Z.to_nat (n + 1)))).
Proof. intros N. unfold edges. destruct (Z.eqb_spec n 0); [lia|reflexivity]. Qed.

Lemma rising_map (f : nat -> b64) m : forall k,
  (forall i, (i < k + m)%nat -> finite (f i) = true) ->
  (forall i, (S i < k + m)%nat -> value (f i) <= value (f (S i))) ->
  rising (map f (seq k m)).
Proof.
  induction m as [|m IH]; intros k F G; cbn [seq map]; [constructor|].
  destruct m as [|m]; cbn [seq map].
  - constructor. apply F. lia.
  - constructor; [apply F; lia|apply G; lia|].
    change (f (S k) :: map f (seq (S (S k)) m)) with (map f (seq (S k) (S m))).
    apply IH; intros i Hi; [apply F|apply G]; lia.
Qed.

(** ---- the range of the data ---- *)
Lemma f_min_ok l : forall m, fin m = true -> (forall x, In x l -> fin x = true) ->
  fin (f_min l m) = true /\ In (f_min l m) (m :: l) /\ (forall x, In x (m :: l) -> val (f_min l m) <= val x).
Proof.
  induction l as [|y l IH]; intros m Fm Fl; cbn [f_min].
  - split; [exact Fm|]. split; [now left|]. intros x [<-|[]]. lra.
  - assert (Fy : fin y = true) by (apply Fl; now left).
    rewrite (flt_finite y m Fy Fm). destruct (rlt (val y) (val m)) eqn:C.
    + apply rlt_true in C. destruct (IH y Fy) as (A & B & D); [intros x X; apply Fl; now right|].
      split; [exact A|]. split; [destruct B as [<-|B]; [right; now left|right; now right]|].
      intros x [<-|[<-|X]].
      * specialize (D y (or_introl eq_refl)). lra.
      * apply D. now left.
      * apply D. now right.
    + apply rlt_false in C. destruct (IH m Fm) as (A & B & D); [intros x X; apply Fl; now right|].
      split; [exact A|]. split; [destruct B as [<-|B]; [now left|right; now right]|].
      intros x [<-|[<-|X]].
      * apply D. now left.
      * specialize (D m (or_introl eq_refl)). lra.
      * apply D. now right.
Qed.

Lemma f_max_ok l : forall m, fin m = true -> (forall x, In x l -> fin x = true) ->
  fin (f_max l m) = true /\ In (f_max l m) (m :: l) /\ (forall x, In x (m :: l) -> val x <= val (f_max l m)).
Proof.
  induction l as [|y l IH]; intros m Fm Fl; cbn [f_max].
  - split; [exact Fm|]. split; [now left|]. intros x [<-|[]]. lra.
  - assert (Fy : fin y = true) by (apply Fl; now left).
    rewrite (flt_finite m y Fm Fy). destruct (rlt (val m) (val y)) eqn:C.
    + apply rlt_true in C. destruct (IH y Fy) as (A & B & D); [intros x X; apply Fl; now right|].
      split; [exact A|]. split; [destruct B as [<-|B]; [right; now left|right; now right]|].
      intros x [<-|[<-|X]].
      * specialize (D y (or_introl eq_refl)). lra.
      * apply D. now left.
      * apply D. now right.
    + apply rlt_false in C. destruct (IH m Fm) as (A & B & D); [intros x X; apply Fl; now right|].
      split; [exact A|]. split; [destruct B as [<-|B]; [now left|right; now right]|].
      intros x [<-|[<-|X]].
      * apply D. now left.
      * specialize (D m (or_introl eq_refl)). lra.
      * apply D. now right.
Qed.

Lemma tiny_val : fin tiny = true /\ 0 < val tiny < 11 / 10 ^ 10.
Proof.
  destruct (ofZ_exact 1000000000) as [F V]; [lia|]. destruct one_val as [F1 V1].
  destruct (div_ok fone (b64_of_Z 1000000000) F1) as (F2 & d & Hd & E).
  - rewrite V. lra.
  - rewrite V, V1. rewrite Rabs_right by lra. apply Rle_trans with 1; [lra|].
    change 1 with (pow2 0). apply bpow_le. lia.
  - right. rewrite V, V1. rewrite Rabs_right by lra. apply Rle_trans with (pow2 (-53)); [apply bpow_le; lia|].
    simpl. lra.
  - split; [exact F2|]. change tiny with (fdiv fone (b64_of_Z 1000000000)). rewrite E, V, V1.
    apply Rabs_le_inv in Hd. pose proof u_small. pose proof u_pos. lra.
Qed.

(** The least and the greatest value; 0 and 0 for no values. *)
Definition extremes (xs : list b64) : b64 * b64 :=
  match xs with [] => (fzero, fzero) | y :: r => (f_min r y, f_max r y) end.

Lemma data_range_ok xs a b lo hi : extremes xs = (a, b) -> data_range xs = (lo, hi) ->
  fin a = true -> fin b = true -> val a <= val b -> Rabs (val a) <= pow2 800 -> Rabs (val b) <= pow2 800 ->
  fin lo = true /\ fin hi = true /\
  ((11 / 10 ^ 10 <= rnd (val b - val a) -> val lo = val a /\ val hi = val b) /\
   ((val lo = val a /\ val hi = val b) \/
    (rnd (val b - val a) < 11 / 10 ^ 10 /\ val lo = rnd (val a - 1) /\ val hi = rnd (val b + 1)))).
Proof.
  intros E D Fa Fb L Ba Bb. unfold data_range in D. fold (extremes xs) in D. rewrite E in D.
  assert (P : pow2 800 + pow2 800 = pow2 801).
  { change 801%Z with (1 + 800)%Z. rewrite bpow_plus. simpl (pow2 1). lra. }
  assert (P1 : 1 <= pow2 800) by (change 1 with (pow2 0); apply bpow_le; lia).
  assert (Q : pow2 801 <= pow2 1000) by (apply bpow_le; lia).
  assert (S0 : Rabs (val b - val a) <= pow2 801).
  { unfold Rminus. eapply Rle_trans; [apply Rabs_triang|]. rewrite Rabs_Ropp. lra. }
  destruct (sub_val b a Fb Fa) as [F1 V1]; [lra|].
  set (delta := fmul (fsub b a) fzero) in D.
  assert (Dl : fin delta = true /\ val delta = 0).
  { destruct (mul_val (fsub b a) fzero F1 eq_refl) as [F2 V2].
    - change (val fzero) with 0. rewrite Rmult_0_r, Rabs_R0. apply bpow_ge_0.
    - split; [exact F2|]. unfold delta. rewrite V2. change (val fzero) with 0. rewrite Rmult_0_r. apply rnd_0. }
  destruct Dl as [Fd Vd].
  destruct (sub_val a delta Fa Fd) as [F3 V3]; [rewrite Vd, Rminus_0_r; lra|].
  rewrite Vd, Rminus_0_r, rnd_val in V3.
  destruct (add_val b delta Fb Fd) as [F4 V4]; [rewrite Vd, Rplus_0_r; lra|].
  rewrite Vd, Rplus_0_r, rnd_val in V4.
  destruct (sub_val (fadd b delta) (fsub a delta) F4 F3) as [F5 V5]; [rewrite V3, V4; lra|].
  rewrite V3, V4 in V5.
  destruct tiny_val as [Ft Vt]. rewrite (flt_finite _ _ F5 Ft), V5 in D.
  destruct one_val as [Fo Vo].
  destruct (rlt (rnd (val b - val a)) (val tiny)) eqn:C; injection D as <- <-.
  - apply rlt_true in C.
    destruct (sub_val (fsub a delta) fone F3 Fo) as [F6 V6].
    { rewrite V3, Vo. unfold Rminus. eapply Rle_trans; [apply Rabs_triang|]. rewrite Rabs_Ropp, Rabs_R1. lra. }
    destruct (add_val (fadd b delta) fone F4 Fo) as [F7 V7].
    { rewrite V4, Vo. eapply Rle_trans; [apply Rabs_triang|]. rewrite Rabs_R1. lra. }
    rewrite V3, Vo in V6. rewrite V4, Vo in V7.
    split; [exact F6|]. split; [exact F7|]. split; [intros G; lra|]. right. split; [lra|]. split; assumption.
  - split; [exact F3|]. split; [exact F4|]. split; [intros _; split; assumption|]. left. split; assumption.
Qed.

(** ---- counting ---- *)
Definition b2n (b : bool) : nat := if b then 1 else 0.

Lemma count_cons {A} (f : A -> bool) x l : count f (x :: l) = (b2n (f x) + count f l)%nat.
Proof. unfold count. cbn [filter]. destruct (f x); reflexivity. Qed.

Fixpoint nsum (f : nat -> nat) (n : nat) : nat := match n with O => 0 | S m => f 0 + nsum (fun i => f (S i)) m end%nat.

Lemma nsum_add f g n : nsum (fun i => (f i + g i)%nat) n = (nsum f n + nsum g n)%nat.
Proof. revert f g. induction n as [|n IH]; intros f g; cbn [nsum]; [reflexivity|]. rewrite IH. lia. Qed.
Lemma nsum_ext f g n : (forall i, (i < n)%nat -> f i = g i) -> nsum f n = nsum g n.
Proof.
  revert f g. induction n as [|n IH]; intros f g H; cbn [nsum]; [reflexivity|].
  rewrite (H 0%nat) by lia. f_equal. apply IH. intros i Hi. apply H. lia.
Qed.
Lemma nsum_0 n : nsum (fun _ => 0%nat) n = 0%nat.
Proof. induction n as [|n IH]; cbn [nsum]; auto. Qed.

Lemma falls_join a b c x : value a <= value b -> value b <= value c ->
  (b2n (falls a b x) + b2n (falls b c x))%nat = b2n (falls a c x).
Proof.
  intros H1 H2. unfold falls. destruct (finite x); [|reflexivity]. cbn [andb].
  destruct (Rle_dec (value a) (value x)), (Rlt_dec (value x) (value b)), (Rle_dec (value b) (value x)),
    (Rlt_dec (value x) (value c)); cbn [andb b2n]; try reflexivity; lra.
Qed.

Lemma last_cons {A} (l : list A) : forall a b, last (b :: l) a = last l b.
Proof.
  induction l as [|c l IH]; intros a b; [reflexivity|].
  change (last (b :: c :: l) a) with (last (c :: l) a). now rewrite !IH.
Qed.

Lemma bins_of_one l : forall a, rising (a :: l) -> forall x,
  nsum (fun p => b2n (in_bin (a :: l) p x)) (length l) = b2n (falls a (last l a) x).
Proof.
  induction l as [|b l IH]; intros a H x.
  - cbn [length nsum last]. unfold falls.
    destruct (Rle_dec (value a) (value x)), (Rlt_dec (value x) (value a)); rewrite ?andb_false_r; try reflexivity.
    lra.
  - cbn [length nsum]. inversion H as [| |? ? ? Fa Le R']; subst.
    change (in_bin (a :: b :: l) 0 x) with (falls a b x).
    rewrite (nsum_ext _ (fun p => b2n (in_bin (b :: l) p x))) by (intros i _; reflexivity).
    rewrite (IH b R' x).
    assert (La : last (b :: l) a = last l b).
    { apply last_cons. }
    rewrite La. apply falls_join; [exact Le|].
    destruct l as [|c l]; [apply Rle_refl|]. apply (rising_head b (c :: l) R').
    clear. revert c. induction l as [|d l IH]; intros c; [left; reflexivity|].
    right. change (last (c :: d :: l) b) with (last (d :: l) b). apply IH.
Qed.

Lemma bins_of_all l a xs : rising (a :: l) ->
  nsum (fun p => count (in_bin (a :: l) p) xs) (length l) = count (falls a (last l a)) xs.
Proof.
  intros H. induction xs as [|x xs IH].
  - unfold count. cbn [filter length]. apply nsum_0.
  - rewrite count_cons. rewrite <- IH, <- (bins_of_one l a H x), <- nsum_add.
    apply nsum_ext. intros i _. apply count_cons.
Qed.

(** A table with one column. *)
Lemma one_column n m : shape n 1 m -> forall (f : nat -> nat),
  (forall p, (p < n)%nat -> exists v, cell m p 0 = Some v /\ value v = INR (f p)) ->
  total value (concat m) = INR (nsum f n).
Proof.
  revert n. induction m as [|row m IH]; intros n [L1 L2] f H.
  - cbn in L1. subst n. reflexivity.
  - cbn [length] in L1. destruct n as [|n]; [discriminate|].
    destruct (H 0%nat) as (v & C & V); [lia|]. unfold cell in C. cbn [nth_error] in C.
    pose proof (L2 row (or_introl eq_refl)) as L. destruct row as [|w [|? ?]]; try discriminate L.
    injection C as ->. cbn [concat app total nsum]. rewrite V, plus_INR. f_equal.
    apply (IH n).
    + split; [lia|]. intros r I. apply L2. now right.
    + intros p P. apply (H (S p)). lia.
Qed.
