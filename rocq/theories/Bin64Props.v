(** C91: histograms in double precision. *)
From Coq Require Import Reals ZArith List Bool Arith Lia Lra Psatz.
From Flocq Require Import Core BinarySingleNaN.
From Verif Require Import Num FloatModel MomentSpec FloatArith PyLibModel Bin64Model Bin64Spec Bin64Proofs.
Import ListNotations.
Open Scope R_scope.

(** Numbers of moderate size. *)
Definition number (k : nat) (x : b64) : Prop := finite x = true /\ Rabs (value x) <= 2 ^ k.

Lemma pow_nat k : pow2 (Z.of_nat k) = 2 ^ k.
Proof. rewrite bpow_powerRZ. change (IZR radix2) with 2. now rewrite <- pow_powerRZ. Qed.
Lemma pow_900 : 2 ^ 900 = pow2 900. Proof. symmetry. exact (pow_nat 900). Qed.
Lemma pow_800 : 2 ^ 800 = pow2 800. Proof. symmetry. exact (pow_nat 800). Qed.
Lemma pow_m1000 : / 2 ^ 1000 = pow2 (-1000).
Proof. change (-1000)%Z with (- Z.of_nat 1000)%Z. rewrite bpow_opp, pow_nat. reflexivity. Qed.
Lemma pow_m53 : / 2 ^ 53 = u.
Proof. unfold u. change (-53)%Z with (- Z.of_nat 53)%Z. rewrite bpow_opp, pow_nat. reflexivity. Qed.

(** The edges between lo and hi: n + 1 of them, none below the one before, the first is lo exactly, and each
    within the precision of doubles of where it should be. *)
Definition good_edges (E : list b64) (lo hi : b64) (n : Z) : Prop :=
  Z.of_nat (length E) = (n + 1)%Z /\ rising E /\
  (forall e, nth_error E 0 = Some e -> value e = value lo) /\
  (forall i e, nth_error E i = Some e ->
     Rabs (value e - (value lo + (value hi - value lo) * (INR i / IZR n))) <=
     8 * / 2 ^ 53 * (Rabs (value lo) + Rabs (value hi)) + / 2 ^ 1000).

Lemma edges_ok lo hi n : number 900 lo -> number 900 hi -> value lo <= value hi -> (1 <= n <= 2 ^ 50)%Z ->
  exists E, edges lo hi n = inr E /\ good_edges E lo hi n.
Proof.
  intros [Fl Bl] [Fh Bh] L N. rewrite pow_900 in *.
  rewrite edges_list by lia. eexists. split; [reflexivity|].
  assert (V : forall i, (i < Z.to_nat (n + 1))%nat -> (Z.of_nat i <= n)%Z) by lia.
  unfold good_edges. rewrite map_length, seq_length. split; [lia|]. split; [|split].
  - apply rising_map.
    + intros i Hi. apply (edge_val lo hi n); auto; lia.
    + intros i Hi. apply (edge_le lo hi n); auto; lia.
  - intros e H. rewrite nth_error_map in H.
    destruct (nth_error (seq 0 (Z.to_nat (n + 1))) 0) as [k|] eqn:K; [|discriminate]. injection H as <-.
    replace k with 0%nat; [now apply (edge_0 lo hi n)|].
    destruct (Z.to_nat (n + 1)); [discriminate|]. now injection K.
  - intros i e H. rewrite nth_error_map in H.
    destruct (nth_error (seq 0 (Z.to_nat (n + 1))) i) as [k|] eqn:K; [|discriminate]. injection H as <-.
    assert (I : (i < Z.to_nat (n + 1))%nat).
    { rewrite <- (seq_length (Z.to_nat (n + 1)) 0). apply nth_error_Some. congruence. }
    assert (k = i).
    { apply nth_error_nth with (d := 0%nat) in K. rewrite seq_nth in K by exact I. lia. }
    subst k. rewrite pow_m53, pow_m1000. apply (edge_error lo hi n); auto.
Qed.

(** get_bin_edges with both limits given, whatever the data. *)
Theorem C91_edges_given xs n lo hi :
  number 900 lo -> number 900 hi -> value lo <= value hi -> (1 <= n <= 2 ^ 50)%Z ->
  exists E, get_bin_edges xs n (Some lo) (Some hi) = inr E /\ good_edges E lo hi n.
Proof.
  intros A B L N. unfold get_bin_edges. destruct (data_range xs). now apply edges_ok.
Qed.

Definition ex_data : list b64 := map b64_of_Z [3; 0; 7; 5; -4]%Z.

Example C91_edges_given_ex : number 900 (b64_of_Z 0) /\ number 900 (b64_of_Z 7) /\
  value (b64_of_Z 0) <= value (b64_of_Z 7).
Proof.
  destruct (ofZ_exact 0) as [F0 V0]; [lia|]. destruct (ofZ_exact 7) as [F7 V7]; [lia|].
  unfold number. rewrite V0, V7, F0, F7.
  assert (P : 7 <= 2 ^ 900).
  { rewrite pow_900. apply Rle_trans with (pow2 3); [simpl; lra|]. apply bpow_le. lia. }
  rewrite Rabs_R0, Rabs_right by lra. repeat split; lra.
Qed.

(** The least and the greatest of the data. *)
Definition least (xs : list b64) (a : b64) : Prop := In a xs /\ forall x, In x xs -> value a <= value x.
Definition greatest (xs : list b64) (b : b64) : Prop := In b xs /\ forall x, In x xs -> value x <= value b.

Lemma sub_rounded (a b : b64) : exists d, Rabs d <= u /\ rnd (value b - value a) = (value b - value a) * (1 + d).
Proof. destruct (rnd_plus b (Bopp a)) as (d & H & E). rewrite B2R_Bopp in E. exists d. split; [exact H|exact E]. Qed.

(** get_bin_edges with no limits given: the same, between limits that are the least and the greatest value, or,
    when these are almost the same, one less and one more, rounded; no value is below the first edge. *)
Theorem C91_edges xs n a b :
  xs <> [] -> Forall (number 800) xs -> least xs a -> greatest xs b -> (1 <= n <= 2 ^ 50)%Z ->
  exists E lo hi, get_bin_edges xs n None None = inr E /\ good_edges E lo hi n /\
    (2 / 10 ^ 9 <= value b - value a -> value lo = value a /\ value hi = value b) /\
    (Rabs (value lo - value a) <= 2 * (1 + Rabs (value a) / 2 ^ 53) /\
     Rabs (value hi - value b) <= 2 * (1 + Rabs (value b) / 2 ^ 53)) /\
    (forall x, In x xs -> value lo <= value x <= value hi).
Proof.
  intros NE F [Ia La] [Ib Lb] N. rewrite Forall_forall in F.
  destruct xs as [|y r]; [congruence|].
  assert (Fx : forall x, In x (y :: r) -> fin x = true) by (intros x X; apply (F x X)).
  destruct (f_min_ok r y (Fx y (or_introl eq_refl)) (fun x X => Fx x (or_intror X))) as (A1 & A2 & A3).
  destruct (f_max_ok r y (Fx y (or_introl eq_refl)) (fun x X => Fx x (or_intror X))) as (B1 & B2 & B3).
  set (mi := f_min r y) in *. set (ma := f_max r y) in *.
  assert (Ea : value mi = value a) by (apply Rle_antisym; auto).
  assert (Eb : value ma = value b) by (apply Rle_antisym; auto).
  assert (Lab : value a <= value b) by auto.
  assert (Ba : Rabs (value a) <= pow2 800) by (rewrite <- pow_800; apply (F a Ia)).
  assert (Bb : Rabs (value b) <= pow2 800) by (rewrite <- pow_800; apply (F b Ib)).
  destruct (data_range (y :: r)) as [lo hi] eqn:D.
  assert (R : extremes (y :: r) = (mi, ma)) by reflexivity.
  destruct (data_range_ok (y :: r) mi ma lo hi R D A1 B1) as (Fl & Fh & D1 & D2);
    [rewrite Ea, Eb; exact Lab|rewrite Ea; exact Ba|rewrite Eb; exact Bb|].
  rewrite Ea, Eb in D1, D2.
  pose proof u_pos as Pu. pose proof u_small as Su.
  assert (P1 : 1 <= pow2 800) by (change 1 with (pow2 0); apply bpow_le; lia).
  assert (P2 : 4 * pow2 800 <= pow2 900).
  { change 4 with (pow2 2). rewrite <- bpow_plus. apply bpow_le. lia. }
  destruct (one_val) as [Fo Vo].
  assert (SL : exists d, Rabs d <= u /\ rnd (value a - 1) = (value a - 1) * (1 + d)).
  { destruct (sub_rounded fone a) as (d & Hd & Ed). rewrite Vo in Ed. now exists d. }
  assert (SH : exists d, Rabs d <= u /\ rnd (value b + 1) = (value b + 1) * (1 + d)).
  { destruct (rnd_plus b fone) as (d & Hd & Ed). rewrite Vo in Ed. now exists d. }
  destruct SL as (d1 & H1 & E1). destruct SH as (d2 & H2 & E2).
  apply Rabs_le_inv in H1, H2, Ba, Bb.
  assert (Low : value lo <= value a).
  { destruct D2 as [[-> _]|(_ & -> & _)]; [lra|]. rewrite <- (rnd_val a) at 2. apply rnd_le. lra. }
  assert (High : value b <= value hi).
  { destruct D2 as [[_ ->]|(_ & _ & ->)]; [lra|]. rewrite <- (rnd_val b) at 1. apply rnd_le. lra. }
  assert (CL : Rabs (value lo - value a) <= 2 * (1 + Rabs (value a) / 2 ^ 53)).
  { unfold Rdiv. rewrite pow_m53. pose proof (Rabs_pos (value a)) as Q. destruct D2 as [[-> _]|(_ & -> & _)].
    - rewrite Rminus_diag_eq, Rabs_R0 by reflexivity. nra.
    - rewrite E1. replace ((value a - 1) * (1 + d1) - value a) with (value a * d1 - (1 + d1)) by ring.
      eapply Rle_trans; [apply Rabs_triang|]. rewrite Rabs_mult, Rabs_Ropp, (Rabs_right (1 + d1)) by lra.
      assert (Rabs d1 <= u) by (apply Rabs_le; lra). nra. }
  assert (CH : Rabs (value hi - value b) <= 2 * (1 + Rabs (value b) / 2 ^ 53)).
  { unfold Rdiv. rewrite pow_m53. pose proof (Rabs_pos (value b)) as Q. destruct D2 as [[_ ->]|(_ & _ & ->)].
    - rewrite Rminus_diag_eq, Rabs_R0 by reflexivity. nra.
    - rewrite E2. replace ((value b + 1) * (1 + d2) - value b) with (value b * d2 + (1 + d2)) by ring.
      eapply Rle_trans; [apply Rabs_triang|]. rewrite Rabs_mult, (Rabs_right (1 + d2)) by lra.
      assert (Rabs d2 <= u) by (apply Rabs_le; lra). nra. }
  assert (NL : number 900 lo).
  { split; [exact Fl|]. rewrite pow_900. apply Rabs_le.
    destruct D2 as [[-> _]|(_ & -> & _)]; [lra|]. rewrite E1. nra. }
  assert (NH : number 900 hi).
  { split; [exact Fh|]. rewrite pow_900. apply Rabs_le.
    destruct D2 as [[_ ->]|(_ & _ & ->)]; [lra|]. rewrite E2. nra. }
  destruct (edges_ok lo hi n NL NH) as (E & EE & G); [lra|exact N|].
  exists E, lo, hi. unfold get_bin_edges. rewrite D. split; [exact EE|]. split; [exact G|]. split; [|split].
  - intros W. apply D1. destruct (sub_rounded a b) as (d & Hd & ->). apply Rabs_le_inv in Hd. nra.
  - split; assumption.
  - intros x X. specialize (La x X). specialize (Lb x X). lra.
Qed.

Lemma ex_number z : (Z.abs z <= 2 ^ 53)%Z -> number 800 (b64_of_Z z).
Proof.
  intros H. destruct (ofZ_exact z H) as [F V]. split; [exact F|]. rewrite V, pow_800.
  eapply Rle_trans; [now apply int_small|]. apply bpow_le. lia.
Qed.

Example C91_edges_ex : ex_data <> [] /\ Forall (number 800) ex_data /\
  least ex_data (b64_of_Z (-4)) /\ greatest ex_data (b64_of_Z 7) /\
  2 / 10 ^ 9 <= value (b64_of_Z 7) - value (b64_of_Z (-4)).
Proof.
  split; [discriminate|]. split.
  { unfold ex_data. rewrite Forall_map. apply Forall_forall. intros z Z. apply ex_number. cbn in Z. lia. }
  assert (V : forall z, (Z.abs z <= 2 ^ 53)%Z -> value (b64_of_Z z) = IZR z) by (intros; now apply ofZ_exact).
  repeat split; try (unfold ex_data; cbn [map In]; tauto); rewrite ?V by (cbn; lia).
  - intros x X. unfold ex_data in X. cbn [map In] in X. destruct X as [<-|[<-|[<-|[<-|[<-|[]]]]]];
      rewrite !V by (cbn; lia); lra.
  - intros x X. unfold ex_data in X. cbn [map In] in X. destruct X as [<-|[<-|[<-|[<-|[<-|[]]]]]];
      rewrite !V by (cbn; lia); lra.
  - lra.
Qed.

(** The table of a histogram: one entry for each pair of bins. *)
Definition table (m : list (list b64)) (xb yb : list b64) : Prop :=
  length m = (length xb - 1)%nat /\ forall row, In row m -> length row = (length yb - 1)%nat.

(** A weighted histogram in two dimensions, for any values, infinite ones and NaN among them: each entry is the
    sum of the weights of the values in the cell, up to the errors of that many additions. *)
Theorem C91_weights xs xb ys yb ws B :
  rising xb -> rising yb -> xb <> [] -> yb <> [] -> length ys = length xs -> length ws = length xs ->
  (forall w, In w ws -> finite w = true /\ Rabs (value w) <= B) -> 0 <= B ->
  INR (length xs) <= 2 ^ 50 -> B <= 2 ^ 900 ->
  exists m, histogram xs xb (Some (ys, yb)) (Some ws) = inr (m, xb, yb) /\ table m xb yb /\
    forall p q, (p < length xb - 1)%nat -> (q < length yb - 1)%nat -> exists c, cell m p q = Some c /\
      finite c = true /\
      let inside := filter (in_cell xb yb p q) (events xs ys ws) in
      Rabs (value c - total (fun e => value (ew e)) inside) <=
      2 * INR (length inside) * / 2 ^ 53 * total (fun e => Rabs (value (ew e))) inside.
Proof.
  intros SX SY NX NY Ly Lw HW HB Ln HB2. rewrite pow_900 in HB2.
  unfold histogram. cbv zeta beta.
  destruct (fill_spec xb yb SX SY xs ys ws _ Ly Lw (zeros_shape (length xb - 1) (length yb - 1))) as (m & E & S & H).
  rewrite E. exists m. split; [destruct xb; [congruence|]; destruct yb; [congruence|]; reflexivity|].
  split; [exact S|]. intros p q P Q. eexists. split; [apply H; [exact P|exact Q|now apply zeros_cell]|].
  set (l := filter (in_cell xb yb p q) (events xs ys ws)).
  assert (Ll : (length l <= length xs)%nat).
  { unfold l. eapply Nat.le_trans; [apply filter_len|]. rewrite events_len by assumption. lia. }
  apply le_INR in Ll. pose proof u_pos as Pu. pose proof (pos_INR (length l)) as Pl.
  assert (Pu50 : 2 ^ 50 * u <= / 8) by (unfold u; simpl; lra).
  destruct (sum_ok (fun e => ew e) B HB l fzero 0) as (Fr & _ & g & Hg & z & Hz & Er).
  - reflexivity.
  - cbn [fzero B2R INR]. rewrite Rabs_R0. lra.
  - intros e I. apply HW. unfold l in I. apply filter_In in I as [I _]. now apply events_weights in I.
  - cbn [Nat.add]. nra.
  - cbn [Nat.add]. assert (2 * INR (length l) * B <= 2 * 2 ^ 50 * pow2 900).
    { apply Rmult_le_compat; lra. }
    eapply Rle_trans; [eassumption|].
    replace (2 * 2 ^ 50) with (pow2 51) by (simpl; lra). rewrite <- bpow_plus. apply bpow_le. lia.
  - split; [exact Fr|]. cbv zeta.
    assert (Ev : value (add_all l fzero) = z).
    { unfold add_all. cbv beta in Er. rewrite Er. change (val fzero) with 0. ring. }
    rewrite Ev.
    assert (TE : forall f (k : list Event), total f k = rsum f k).
    { intros f k. induction k as [|e k IH]; [reflexivity|]. cbn [total rsum]. now rewrite IH. }
    rewrite !TE. rewrite pow_m53. apply perturbed_error; [nra|]. exact Hz.
Qed.

Definition shown (r : BErr + (list (list b64) * list b64 * list b64)) : option (list (list SpecFloat.spec_float)) :=
  match r with inl _ => None | inr (m, _, _) => Some (map (map B2SF) m) end.

Example C91_weights_ex :
  shown (histogram ex_data (map b64_of_Z [0; 4; 8]%Z) (Some (ex_data, map b64_of_Z [-5; 4; 8]%Z))
           (Some (map b64_of_Z [1; 2; 3; 4; 5]%Z)))
  = Some (map (map (fun z => B2SF (b64_of_Z z))) [[3; 0]; [0; 7]]%Z).
Proof. vm_compute. reflexivity. Qed.

(** Without weights each entry is exactly the number of values in the cell. *)
Theorem C91_counts xs xb ys yb :
  rising xb -> rising yb -> xb <> [] -> yb <> [] -> length ys = length xs ->
  (Z.of_nat (length xs) <= 2 ^ 53)%Z ->
  exists m, histogram xs xb (Some (ys, yb)) None = inr (m, xb, yb) /\ table m xb yb /\
    forall p q, (p < length xb - 1)%nat -> (q < length yb - 1)%nat -> exists c, cell m p q = Some c /\
      value c = INR (count (fun e => in_bin xb p (fst e) && in_bin yb q (snd e)) (combine xs ys)).
Proof.
  intros SX SY NX NY Ly Ln. unfold histogram. cbv zeta beta.
  set (ws := map (fun _ => fone) xs).
  assert (Lw : length ws = length xs) by apply map_length.
  destruct (fill_spec xb yb SX SY xs ys ws _ Ly Lw (zeros_shape (length xb - 1) (length yb - 1))) as (m & E & S & H).
  rewrite E. exists m. split; [destruct xb; [congruence|]; destruct yb; [congruence|]; reflexivity|].
  split; [exact S|]. intros p q P Q. eexists. split; [apply H; [exact P|exact Q|now apply zeros_cell]|].
  set (l := filter (in_cell xb yb p q) (events xs ys ws)).
  assert (Ll : (length l <= length xs)%nat).
  { unfold l. eapply Nat.le_trans; [apply filter_len|]. rewrite events_len by assumption. lia. }
  destruct (add_all_ones l) with (z := fzero) (k := 0%Z) as [_ V]; try reflexivity; try lia.
  - intros e I. unfold l in I. apply filter_In in I as [I _]. apply events_weights in I.
    unfold ws in I. apply in_map_iff in I as (? & <- & _). reflexivity.
  - rewrite V, Z.add_0_l, <- INR_IZR_INZ. f_equal. unfold l, ws. clear - Ly. unfold count.
    revert ys Ly. induction xs as [|x xs IH]; intros [|y ys] Ly; try discriminate; [reflexivity|].
    cbn [map events combine filter]. unfold in_cell at 1. cbn [ex ey fst snd].
    injection Ly as Ly. destruct (in_bin xb p x && in_bin yb q y); cbn [length]; now rewrite IH.
Qed.

Example C91_counts_ex :
  shown (histogram ex_data (map b64_of_Z [0; 4; 8]%Z)
           (Some ([B754_nan; B754_infinity false; fzero; fzero; fzero], map b64_of_Z [-5; 4]%Z)) None)
  = Some (map (map (fun z => B2SF (b64_of_Z z))) [[0]; [2]]%Z).
Proof. vm_compute. reflexivity. Qed.

(** One dimension, with edges from the data: the counts add up to the number of values below the last edge, and
    that edge is the greatest value or above it but for the precision of doubles: every value further below the
    greatest is counted, in exactly one bin. *)
Theorem C91_total xs n A b :
  xs <> [] -> Forall (number 800) xs -> greatest xs b -> (1 <= n <= 2 ^ 50)%Z ->
  (Z.of_nat (length xs) <= 2 ^ 53)%Z -> (forall x, In x xs -> Rabs (value x) <= A) ->
  exists E m e, get_bin_edges xs n None None = inr E /\ histogram xs E None None = inr (m, E, []) /\
    nth_error E (length E - 1) = Some e /\
    total value (concat m) = INR (count (fun x => if Rlt_dec (value x) (value e) then true else false) xs) /\
    (forall p, (p < length E - 1)%nat -> exists c, cell m p 0 = Some c /\ value c = INR (count (in_bin E p) xs)) /\
    value b - 32 * / 2 ^ 53 * (A + 2) <= value e.
Proof.
  intros NE F Gb N Ln HA.
  assert (exists a, least xs a) as (a & Ga).
  { destruct xs as [|y r]; [congruence|]. rewrite Forall_forall in F.
    destruct (f_min_ok r y) as (A1 & A2 & A3).
    - apply (F y). now left.
    - intros x X. apply (F x). now right.
    - exists (f_min r y). split; assumption. }
  destruct (C91_edges xs n a b NE F Ga Gb N) as (E & lo & hi & EE & (GL & GR & G0 & GE) & W & (CL & CH) & In1).
  assert (LE : length E = Z.to_nat (n + 1)) by lia.
  assert (NEE : E <> []) by (intros ->; cbn in LE; lia).
  set (yb := [b64_of_Z (-1); fone]). set (ys := map (fun _ => fzero) xs).
  destruct one_val as [Fo Vo]. destruct (ofZ_exact (-1)) as [Fm Vm]; [lia|].
  assert (RY : rising yb).
  { unfold yb. constructor; [exact Fm|rewrite Vm, Vo; lra|]. now constructor. }
  destruct (C91_counts xs E ys yb GR RY NEE ltac:(discriminate) ltac:(unfold ys; now rewrite map_length) Ln)
    as (m & HM & (T1 & T2) & HC).
  destruct (nth_error E (length E - 1)) as [e|] eqn:Ee; [|apply nth_error_None in Ee; lia].
  exists E, m, e. split; [exact EE|].
  assert (HH : histogram xs E None None = inr (m, E, [])).
  { unfold histogram in *. cbv zeta in *. unfold ys in HM. unfold yb in *.
    destruct E as [|e0 E']; [congruence|]. destruct (fill _ _ _ _ _ _); [discriminate|]. injection HM as ->. reflexivity. }
  split; [exact HH|]. split; [exact Ee|].
  assert (Cb : forall p, count (fun e0 => in_bin E p (fst e0) && in_bin yb 0 (snd e0)) (combine xs ys) = count (in_bin E p) xs).
  { intros p. unfold ys. clear - Fo Vo Fm Vm. induction xs as [|x xs IH]; [reflexivity|].
    cbn [map combine]. rewrite !count_cons, IH. cbn [fst snd]. f_equal. f_equal.
    replace (in_bin yb 0 fzero) with true; [apply andb_true_r|].
    symmetry. unfold in_bin, yb. cbn [nth_error]. apply falls_true. rewrite Vm, Vo. cbn. split; [reflexivity|lra]. }
  assert (Cells : forall p, (p < length E - 1)%nat -> exists c, cell m p 0 = Some c /\ value c = INR (count (in_bin E p) xs)).
  { intros p P. destruct (HC p 0%nat P) as (c & C1 & C2); [unfold yb; cbn; lia|].
    exists c. split; [exact C1|]. rewrite C2. f_equal. apply Cb. }
  split; [|split; [exact Cells|]].
  - rewrite (one_column (length E - 1) m) with (f := fun p => count (in_bin E p) xs).
    + destruct E as [|e0 E']; [congruence|]. cbn [length]. replace (S (length E') - 1)%nat with (length E') by lia.
      rewrite (bins_of_all E' e0 xs GR). f_equal.
      assert (La : value (last E' e0) = value e).
      { f_equal. cbn [length] in Ee. replace (S (length E') - 1)%nat with (length E') in Ee by lia.
        clear - Ee. revert e0 Ee. induction E' as [|c E' IH]; intros e0 Ee; [now injection Ee|].
        rewrite last_cons. apply IH. exact Ee. }
      specialize (G0 e0 eq_refl). rewrite Forall_forall in F.
      clear - La G0 In1 F. unfold count. f_equal.
      apply filter_ext_in. intros x X. destruct (In1 x X) as [I1 _]. destruct (F x X) as [Fx _].
      unfold falls. rewrite Fx, La, G0. destruct (Rle_dec (value lo) (value x)); [|lra]. reflexivity.
    + split; [exact T1|]. intros row I. rewrite (T2 row I). reflexivity.
    + exact Cells.
  - specialize (GE _ _ Ee).
    assert (Fr : INR (length E - 1) / IZR n = 1).
    { rewrite INR_IZR_INZ. replace (Z.of_nat (length E - 1)) with n by lia. apply Rinv_r.
      apply not_0_IZR. lia. }
    rewrite Fr, Rmult_1_r in GE. replace (value lo + (value hi - value lo)) with (value hi) in GE by ring.
    destruct Gb as [Ib Mb]. destruct Ga as [Ia Ma]. pose proof (HA a Ia) as Aa. pose proof (HA b Ib) as Ab.
    pose proof (proj2 (In1 b Ib)) as Hb. apply Rabs_le_inv in GE.
    unfold Rdiv in CL, CH. rewrite pow_m53 in *. rewrite pow_m1000 in GE. pose proof u_pos as Pu. pose proof u_small as Su.
    assert (P0 : pow2 (-1000) <= u) by (unfold u; apply bpow_le; lia).
    assert (BL : Rabs (value lo) <= A + 2 * (1 + A * u)).
    { replace (value lo) with (value a + (value lo - value a)) by ring. eapply Rle_trans; [apply Rabs_triang|].
      assert (Rabs (value a) * u <= A * u) by (apply Rmult_le_compat_r; lra). lra. }
    assert (BH : Rabs (value hi) <= A + 2 * (1 + A * u)).
    { replace (value hi) with (value b + (value hi - value b)) by ring. eapply Rle_trans; [apply Rabs_triang|].
      assert (Rabs (value b) * u <= A * u) by (apply Rmult_le_compat_r; lra). lra. }
    pose proof (Rabs_pos (value a)) as PA.
    assert (8 * u * (Rabs (value lo) + Rabs (value hi)) <= 8 * u * (2 * (A + 2 * (1 + A * u)))).
    { apply Rmult_le_compat_l; lra. }
    assert (0 <= A * u) by nra. assert (A * u <= A * / 1000) by nra. nra.
Qed.

Example C91_total_ex : forall x, In x ex_data -> Rabs (value x) <= 7.
Proof.
  assert (V : forall z, (Z.abs z <= 2 ^ 53)%Z -> value (b64_of_Z z) = IZR z) by (intros; now apply ofZ_exact).
  intros x X. unfold ex_data in X. cbn [map In] in X.
  destruct X as [<-|[<-|[<-|[<-|[<-|[]]]]]]; rewrite V by (cbn; lia); apply Rabs_le; lra.
Qed.

(** The number of nonzero entries, and that they are one. *)
Definition ones (m : list (list b64)) : list bool :=
  map (fun c => Beqb c fone) (filter (fun c => flt fzero c) (concat m)).
Definition hist_of (xs : list b64) (n : Z) : BErr + list bool :=
  match get_bin_edges xs n None None with
  | inl e => inl e
  | inr E => match histogram xs E None None with inl e => inl e | inr (m, _, _) => inr (ones m) end
  end.

(** Whether the greatest value is counted depends on rounding: of the values 0 and 7, one is counted with 24
    bins, both with 25. *)
Theorem C91_greatest_refuted :
  hist_of (map b64_of_Z [0; 7]%Z) 24 = inr [true] /\ hist_of (map b64_of_Z [0; 7]%Z) 25 = inr [true; true].
Proof. split; vm_compute; reflexivity. Qed.

(** A value below the greatest one can be lost: with 49 bins for 0, 1 - 2^-53 and 1, only 0 is counted. *)
Theorem C91_below_greatest_refuted :
  let v := fsub fone (fdiv fone (b64_of_Z (2 ^ 53))) in
  flt v fone = true /\ hist_of [fzero; v; fone] 49 = inr [true].
Proof. split; vm_compute; reflexivity. Qed.

(** Edges can be the same, although the limits differ. *)
Theorem C91_distinct_refuted : exists lo hi, flt lo hi = true /\
  match get_bin_edges [] 4 (Some lo) (Some hi) with inr (e1 :: e2 :: _) => Beqb e1 e2 | _ => false end = true.
Proof. exists (b64_of_Z (2 ^ 53)), (b64_of_Z (2 ^ 53 + 2)). split; vm_compute; reflexivity. Qed.

(** Values that are all the same and large are all lost: one less and one more are the same number. *)
Theorem C91_same_refuted : hist_of (map b64_of_Z [2 ^ 60; 2 ^ 60; 2 ^ 60]%Z) 10 = inr [].
Proof. vm_compute. reflexivity. Qed.

(** So are all values when their range is more than the greatest double: the edges are NaN. *)
Theorem C91_overflow_refuted :
  let big := b64_of_Z (2 ^ 1023 + 2 ^ 1022) in
  finite big = true /\ hist_of [big; fzero; Bopp big] 10 = inr [].
Proof. split; vm_compute; reflexivity. Qed.

Print Assumptions C91_edges_given.
Print Assumptions C91_edges.
Print Assumptions C91_weights.
Print Assumptions C91_counts.
Print Assumptions C91_total.
Print Assumptions C91_greatest_refuted.
Print Assumptions C91_below_greatest_refuted.
Print Assumptions C91_distinct_refuted.
Print Assumptions C91_same_refuted.
Print Assumptions C91_overflow_refuted.
