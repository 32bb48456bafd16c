(** Proofs for the multipole weighting. *)
From Coq Require Import Reals ZArith List Bool String Lia Lra Sorting.Sorted Permutation.
From Verif Require Import Num WeightModel HitcoreModel HitcoreSpec HitcoreProofs PyLibModel PyLibProofs BunchModel BunchSpec
  BunchProofs HitPyModel HitPySpec HitPyProofs MomentModel MomentSpec MomentProofs MomentProps StatProofs BunchNumModel CommonModel
  CommonSpec CommonProofs GridProofs EllipseModel TransformModel TransformProofs FitProofs VoronoiModel VoronoiSpec VoronoiProofs
  MultipoleModel MultipoleSpec.
Import ListNotations.
Open Scope R_scope.

(** ---- order ---- *)
Lemma index_eqb_eq a : forall b, index_eqb a b = true <-> a = b.
Proof.
  induction a as [|x a IH]; intros [|y b]; cbn [index_eqb]; split; intros H; try discriminate; auto.
  - apply andb_prop in H. destruct H as [H1 H2]. apply Z.eqb_eq in H1. apply IH in H2. congruence.
  - injection H as -> ->. rewrite Z.eqb_refl. cbn [andb]. apply IH. reflexivity.
Qed.

Lemma index_order : weak_order index_ltb.
Proof.
  apply lex_weak_order; intros.
  - apply Z.eqb_eq.
  - apply Z.ltb_irrefl.
  - apply Z.ltb_lt in H. apply Z.ltb_ge. lia.
  - apply Z.ltb_lt in H, H0. apply Z.ltb_lt. lia.
  - apply Z.ltb_ge in H, H0. lia.
Qed.

Lemma index_total a b : index_ltb a b = false -> index_ltb b a = false -> a = b.
Proof.
  apply lex_total; intros.
  - apply Z.eqb_eq.
  - apply Z.ltb_irrefl.
  - apply Z.ltb_ge in H, H0. lia.
Qed.

Lemma item_false x y : item_ltb y x = false <-> (fst y = fst x /\ snd x <= snd y) \/ index_ltb (fst x) (fst y) = true.
Proof.
  unfold item_ltb. destruct (index_eqb (fst y) (fst x)) eqn:E.
  - apply index_eqb_eq in E. destruct (Rlt_dec (snd y) (snd x)) as [L|L]; split; intros H; try discriminate; auto.
    + destruct H as [[_ H]|H]; [lra|]. rewrite E, (wo_irr _ index_order) in H. discriminate.
    + left. split; [auto|lra].
  - split; intros H.
    + right. destruct (index_ltb (fst x) (fst y)) eqn:F; auto. rewrite (index_total _ _ H F) in E.
      rewrite (proj2 (index_eqb_eq _ _) eq_refl) in E. discriminate.
    + destruct H as [[H _]|H]; [rewrite (proj2 (index_eqb_eq _ _) H) in E; discriminate|].
      apply (wo_asym _ index_order). exact H.
Qed.

Lemma index_trans a b c : index_ltb a b = true -> index_ltb b c = true -> index_ltb a c = true.
Proof.
  apply lex_trans; intros; rewrite ?Z.ltb_lt, ?Z.ltb_ge, ?Z.eqb_eq in *; solve [lia|tauto|intuition].
Qed.

Lemma item_order : weak_order item_ltb.
Proof.
  constructor.
  - intros x. apply item_false. left. split; [auto|lra].
  - intros x y H. destruct (item_ltb y x) eqn:E; auto. exfalso.
    assert (F : item_ltb x y = false); [|congruence]. apply item_false. unfold item_ltb in E, H.
    destruct (index_eqb (fst y) (fst x)) eqn:Q.
    + apply index_eqb_eq in Q. left. split; auto. destruct (Rlt_dec (snd y) (snd x)); [lra|discriminate].
    + auto.
  - intros x y z H1 H2. apply item_false in H1, H2. apply item_false.
    destruct H1 as [[E1 L1]|H1], H2 as [[E2 L2]|H2].
    + left. split; [congruence|lra].
    + right. rewrite <- E1. exact H2.
    + right. rewrite E2. exact H1.
    + right. eapply index_trans; eauto.
Qed.

Lemma keys_sorted s : StronglySorted (le item_ltb) s -> StronglySorted (le index_ltb) (map fst s).
Proof.
  induction 1 as [|x s Hs IH Hf]; cbn [map]; constructor; auto. rewrite Forall_forall in *. intros k Hk.
  apply in_map_iff in Hk. destruct Hk as (y & <- & Hy). specialize (Hf y Hy). unfold le in *. apply item_false in Hf.
  destruct Hf as [[E _]|H]; [rewrite E; apply (wo_irr _ index_order)|apply (wo_asym _ index_order), H].
Qed.

(** The value found is the one of the key. *)
Lemma find_spec s key x : StronglySorted (le item_ltb) s -> NoDup (map fst s) -> In (key, x) s ->
  find_moment (map fst s) (map snd s) key = inr x.
Proof.
  intros Hs Nd I. apply In_nth_error in I. destruct I as [k Ek].
  destruct (bisect_left_spec index_ltb index_order (map fst s) key (keys_sorted s Hs)) as (L & B & A).
  set (r := bisect_left index_ltb (map fst s) key) in *.
  assert (Kf : nth_error (map fst s) k = Some key) by (rewrite nth_error_map, Ek; reflexivity).
  assert (Hk : (k < List.length (map fst s))%nat) by (apply nth_error_Some; congruence).
  assert (Hr : (r <= k)%nat).
  { destruct (Nat.le_gt_cases r k); auto. specialize (B k key H Kf). rewrite (wo_irr _ index_order) in B. discriminate. }
  destruct (nth_error (map fst s) r) as [kr|] eqn:Er; [|apply nth_error_None in Er; lia].
  assert (E : kr = key).
  { apply index_total; [apply (A r); auto|].
    destruct (Nat.eq_dec r k) as [->|N]; [rewrite Kf in Er; injection Er as <-; apply (wo_irr _ index_order)|].
    destruct (sorted_nth index_ltb (map fst s) (keys_sorted s Hs) r k kr key) as [Q|Q]; auto; lia. }
  subst kr. rewrite NoDup_nth_error in Nd. assert (Q : r = k) by (apply Nd; [lia|congruence]).
  unfold find_moment. fold r. rewrite Q, nth_error_map, Ek. reflexivity.
Qed.

(** ---- targets ---- *)
Definition zpair (tg : list nat * R) : list Z * R := (map Z.of_nat (fst tg), snd tg).

Lemma map_of_nat_inj a : forall b, map Z.of_nat a = map Z.of_nat b -> a = b.
Proof.
  induction a as [|x a IH]; intros [|y b] H; try discriminate; auto. injection H as H1 H2. apply Nat2Z.inj in H1.
  f_equal; auto.
Qed.

Lemma zpair_keys l : map fst (map zpair l) = map (map Z.of_nat) (map fst l).
Proof. rewrite !map_map. reflexivity. Qed.
Lemma zpair_values l : map snd (map zpair l) = map snd l.
Proof. rewrite !map_map. reflexivity. Qed.

Lemma nodup_of_nat l : NoDup l -> NoDup (map (map Z.of_nat) l).
Proof.
  induction 1 as [|t l H Hn IH]; cbn [map]; constructor; auto. intros I. apply in_map_iff in I.
  destruct I as (u & E & Hu). apply map_of_nat_inj in E. subst u. contradiction.
Qed.

Lemma as_ints_items n targets : (forall t g, In (t, g) targets -> List.length t = n) ->
  all_some (map (fun item => if Nat.eqb (List.length item) n then all_some item else None) (as_ints targets))
  = Some (map fst (map zpair targets)).
Proof.
  induction targets as [|[t g] targets IH]; intros H; [reflexivity|]. cbn [as_ints map all_some fst].
  fold (as_ints targets). rewrite IH by (intros; eapply H; right; eauto). rewrite map_length, (H t g (or_introl eq_refl)), Nat.eqb_refl.
  replace (all_some (map (fun k => Some (Z.of_nat k)) t)) with (Some (map Z.of_nat t)); [reflexivity|].
  clear. induction t as [|k t IH]; [reflexivity|]. cbn [map all_some]. rewrite <- IH. reflexivity.
Qed.

Lemma no_adjacent l : NoDup l -> adjacent_equal l = false.
Proof.
  induction 1 as [|a l H Hn IH]; [reflexivity|]. destruct l as [|b l]; [reflexivity|].
  change (adjacent_equal (a :: b :: l)) with (index_eqb b a || adjacent_equal (b :: l))%bool. rewrite IH, orb_false_r.
  destruct (index_eqb b a) eqn:E; auto. apply index_eqb_eq in E. subst b. exfalso. apply H. left; auto.
Qed.

Lemma combine_zpair targets : combine (map fst (map zpair targets)) (map snd targets) = map zpair targets.
Proof. induction targets as [|[t g] r IH]; [reflexivity|]. cbn [map combine fst snd zpair]. f_equal. exact IH. Qed.

Lemma set_target_spec max vars mx targets : usable_targets (List.length vars) mx targets ->
  exists s, Permutation targets s /\ StronglySorted (le item_ltb) (map zpair s) /\ NoDup (map fst (map zpair s)) /\
    set_target_moments max vars (as_ints targets) (map snd targets) =
    inr (mkMp max vars (map fst (map zpair s)) (map snd (map zpair s))).
Proof.
  intros (Ne & Nd & Hu). unfold set_target_moments, as_ints. rewrite !map_length, Nat.eqb_refl. cbn [negb].
  fold (as_ints targets). rewrite as_ints_items by (intros t g I; apply (Hu t g I)).
  rewrite no_adjacent by (rewrite zpair_keys; apply nodup_of_nat; auto). rewrite combine_zpair.
  pose proof (sort_perm item_ltb (map zpair targets)) as P.
  pose proof (sort_sorted item_ltb item_order (map zpair targets)) as S. set (so := sort item_ltb _) in *.
  destruct (Permutation_map_inv zpair targets P) as (s & Es & Ps).
  exists s. split; auto. rewrite <- Es. split; auto. split.
  - rewrite Es, zpair_keys. apply nodup_of_nat. eapply Permutation_NoDup; [|exact Nd]. apply Permutation_map. auto.
  - destruct so as [|x so']; [|reflexivity]. destruct s; [|discriminate]. apply Permutation_sym, Permutation_nil in Ps. congruence.
Qed.

(** ---- moments of the bunch ---- *)
Section Setup.
  Variable extra : RWorld -> list nat -> string -> nat -> option RVal.
  Variable w : RWorld.
  Variable b : Bunch.
  Variable vars : list string.
  Variable val : string -> nat -> R.
  Hypothesis Hc : w_cur w = 0%nat.
  Hypothesis Hb : in_step b.
  Hypothesis Hh : forall l, In l (b_hits b) -> is_hit w l.
  Hypothesis Hw : 1 / 1000000000000000 <= Rabs (total_weight w (b_hits b)).
  Hypothesis Hv : vars <> [].
  Hypothesis Hk : forall v, In v vars -> assoc get_dbl_map v <> None.
  Hypothesis Hr : readings extra w (b_hits b) vars val.

  Let f := raw_moment w (b_hits b) vars val.

  Lemma setup_spec (mp : Multipole) (max : nat) : mp_vars mp = vars -> mp_max mp = Z.of_nat max -> (1 <= max)%nat ->
    exists sf, setup mp w b = inr (map fst sf, map snd sf) /\
      StronglySorted (le item_ltb) sf /\ NoDup (map fst sf) /\
      (forall key x, In (key, x) sf -> exists t, key = map Z.of_nat t /\ List.length t = List.length vars /\ (list_sum t <= 2 * max)%nat) /\
      forall t, List.length t = List.length vars -> (1 <= list_sum t <= 2 * max)%nat -> In (map Z.of_nat t, f t) sf.
  Proof.
    intros Ev Em Hm. unfold setup. rewrite Ev, Em. unfold py_moment_tensor, py_index_by_power.
    assert (L : (1 <= List.length vars)%nat) by (destruct vars; [congruence|cbn; lia]).
    rewrite (proj2 (Z.ltb_ge (2 * Z.of_nat max) 0)) by lia.
    rewrite (proj2 (Z.ltb_ge (Z.of_nat (List.length vars)) 1)) by lia. cbn [orb].
    rewrite (moment_tensor_spec extra w b vars (Z.to_nat (2 * Z.of_nat max)) val) by (auto; lia).
    rewrite Nat2Z.id. replace (Z.to_nat (2 * Z.of_nat max)) with (2 * max)%nat by lia.
    destruct (index_by_power_spec (2 * max) (List.length vars) L) as [N I].
    change (index_by_power (2 * max) (List.length vars)) with
      (repeat 0%nat (List.length vars) :: index_by_power_recurse (List.length vars) (2 * max) 0 (repeat 0%nat (List.length vars))) in *.
    set (pw := index_by_power_recurse _ _ _ _) in *. cbn [map tl].
    match goal with |- context [sort item_ltb ?c] => replace c with (map (fun t => (map Z.of_nat t, f t)) pw) end.
    2: { clear. induction pw as [|t pw IH]; [reflexivity|]. cbn [map combine]. rewrite IH. reflexivity. }
    set (items := map _ pw). pose proof (sort_perm item_ltb items) as P.
    pose proof (sort_sorted item_ltb item_order items) as S. set (sf := sort item_ltb items) in *.
    assert (Ip : forall t, List.length t = List.length vars -> (1 <= list_sum t <= 2 * max)%nat -> In t pw).
    { intros t Lt St. destruct (proj2 (I t) (conj Lt (proj2 St))) as [E|E]; auto. exfalso. subst t.
      assert (Z : forall k, list_sum (repeat 0%nat k) = 0%nat) by (induction k; cbn; auto). rewrite Z in St. lia. }
    assert (Is : forall t, List.length t = List.length vars -> (1 <= list_sum t <= 2 * max)%nat -> In (map Z.of_nat t, f t) sf).
    { intros t Lt St. apply (Permutation_in _ (Permutation_sym P)). apply in_map_iff. exists t. auto. }
    assert (Ne : sf <> []).
    { intros E. specialize (Is (1%nat :: repeat 0%nat (List.length vars - 1))). rewrite E in Is. cbn in Is.
      rewrite repeat_length in Is. apply Is; [lia|].
      assert (Z : forall k, list_sum (repeat 0%nat k) = 0%nat) by (induction k; cbn; auto).
      change (fold_right Nat.add 0%nat) with list_sum. rewrite Z. lia. }
    exists sf. split; [destruct sf; [congruence|reflexivity]|]. split; auto. split.
    - eapply Permutation_NoDup; [apply Permutation_map, Permutation_sym, P|]. unfold items. rewrite map_map. cbn [fst].
      apply nodup_of_nat. inversion N; auto.
    - split; auto. intros key x K. apply (Permutation_in _ P) in K. apply in_map_iff in K. destruct K as (t & E & Ht).
      injection E as <- _. exists t. split; auto. apply I. right; auto.
  Qed.
End Setup.

(** ---- the coefficients ---- *)
Lemma all_okP_map {A B} (h : A -> PErr + B) (k : A -> B) l : (forall x, In x l -> h x = inr (k x)) ->
  all_okP (map h l) = inr (map k l).
Proof.
  induction l as [|x l IH]; intros H; [reflexivity|]. cbn [map all_okP]. rewrite (H x (or_introl eq_refl)).
  rewrite IH by (intros; apply H; right; auto). reflexivity.
Qed.

Lemma index_add_nat s : forall t, index_add (map Z.of_nat s) (map Z.of_nat t) = map Z.of_nat (powers_add s t).
Proof.
  induction s as [|x s IH]; intros [|y t]; try reflexivity. unfold index_add, powers_add. cbn [map combine fst snd].
  rewrite Nat2Z.inj_add. f_equal. apply IH.
Qed.

Lemma powers_add_length s t : List.length s = List.length t -> List.length (powers_add s t) = List.length s.
Proof. intros H. unfold powers_add. rewrite map_length, combine_length. lia. Qed.

Lemma powers_add_sum s : forall t, List.length s = List.length t -> list_sum (powers_add s t) = (list_sum s + list_sum t)%nat.
Proof.
  induction s as [|x s IH]; intros [|y t] H; try discriminate; auto. unfold powers_add. cbn [map combine fst snd].
  fold (powers_add s t). change (list_sum (x + y :: powers_add s t))%nat with (x + y + list_sum (powers_add s t))%nat.
  rewrite IH by (cbn in H; lia). change (list_sum (x :: s)) with (x + list_sum s)%nat.
  change (list_sum (y :: t)) with (y + list_sum t)%nat. lia.
Qed.

Lemma rsum_sum_n {A} (F : A -> R) d l : rsum F l = sum_n (List.length l) (fun k => F (nth k l d)).
Proof.
  induction l as [|x l IH]; [reflexivity|]. cbn [rsum List.length].
  assert (G : forall n f, sum_n (S n) f = f 0%nat + sum_n n (fun k => f (S k))).
  { intros n. induction n as [|n IHn]; intros h; [cbn; lra|]. change (sum_n (S (S n)) h) with (sum_n (S n) h + h (S n)).
    rewrite IHn. change (sum_n (S n) (fun k => h (S k))) with (sum_n n (fun k => h (S k)) + h (S n)). lra. }
  rewrite G. cbn [nth]. rewrite IH. reflexivity.
Qed.

Lemma nth_map_dep {A B} (h : A -> B) l k d d' : (k < List.length l)%nat -> nth k (map h l) d = h (nth k l d').
Proof. intros H. rewrite (nth_indep _ d (h d')) by (rewrite map_length; auto). apply map_nth. Qed.

Lemma dot_rsum u : forall v d, List.length u = d -> List.length v = d -> dot u v = sum_n d (fun k => nth k u 0 * nth k v 0).
Proof.
  induction u as [|x u IH]; intros [|y v] d Hu Hv; subst d; try discriminate; [reflexivity|].
  cbn [List.length]. assert (G : forall n f, sum_n (S n) f = f 0%nat + sum_n n (fun k => f (S k))).
  { intros n. induction n as [|n IHn]; intros h; [cbn; lra|]. change (sum_n (S (S n)) h) with (sum_n (S n) h + h (S n)).
    rewrite IHn. change (sum_n (S n) (fun k => h (S k))) with (sum_n n (fun k => h (S k)) + h (S n)). lra. }
  rewrite G. cbn [nth]. rewrite <- (IH v); [reflexivity|auto|cbn in Hv; lia].
Qed.

(** A list of values of the right length is a function of distinct keys. *)
Lemma function_of {A} (eq_dec : forall x y : A, {x = y} + {x <> y}) (keys : list A) : NoDup keys ->
  forall vs : list R, List.length vs = List.length keys -> exists a, vs = map a keys.
Proof.
  induction 1 as [|k keys Hk Hn IH]; intros [|v vs] L; try discriminate; [exists (fun _ => 0); reflexivity|].
  destruct (IH vs) as (a & E); [cbn in L; lia|]. exists (fun x => if eq_dec x k then v else a x). cbn [map].
  destruct (eq_dec k k); [|congruence]. f_equal. rewrite E. apply map_ext_in. intros x Hx.
  destruct (eq_dec x k); [subst; contradiction|auto].
Qed.

Section Coef.
  Variable extra : RWorld -> list nat -> string -> nat -> option RVal.
  Variable inv : Matrix -> option Matrix.
  Variable w : RWorld.
  Variable b : Bunch.
  Variable vars : list string.
  Variable val : string -> nat -> R.
  Hypothesis Hc : w_cur w = 0%nat.
  Hypothesis Hb : in_step b.
  Hypothesis Hh : forall l, In l (b_hits b) -> is_hit w l.
  Hypothesis Hw : 1 / 1000000000000000 <= Rabs (total_weight w (b_hits b)).
  Hypothesis Hv : vars <> [].
  Hypothesis Hk : forall v, In v vars -> assoc get_dbl_map v <> None.
  Hypothesis Hr : readings extra w (b_hits b) vars val.
  Variable max : nat.
  Variable s : list (list nat * R).
  Hypothesis Ss : StronglySorted (le item_ltb) (map zpair s).
  Hypothesis Sn : NoDup (map fst (map zpair s)).
  Hypothesis Ne : s <> [].
  Hypothesis Su : forall t g, In (t, g) s -> List.length t = List.length vars /\ (1 <= list_sum t <= max)%nat.
  Hypothesis Hi : forall m minv, inv m = Some minv -> inverse_of (List.length s) m minv.

  Let f := raw_moment w (b_hits b) vars val.
  Let mp := mkMp (Z.of_nat max) vars (map fst (map zpair s)) (map snd (map zpair s)).

  Lemma coefficients_spec :
    (coefficients inv mp w b = inl PLinAlg /\
     inv (map (fun ig => map (fun jg => f (powers_add (fst ig) (fst jg)) - f (fst ig) * snd jg) s) s) = None) \/
    exists a, coefficients inv mp w b = inr (map a (map fst s)) /\
      forall t g, In (t, g) s ->
        rsum (fun jg => (f (powers_add t (fst jg)) - f t * snd jg) * a (fst jg)) s = g - f t.
  Proof.
    assert (Hm : (1 <= max)%nat).
    { destruct s as [|[t g] r]; [congruence|]. destruct (Su t g (or_introl eq_refl)). lia. }
    destruct (setup_spec extra w b vars val Hc Hb Hh Hw Hv Hk Hr mp max eq_refl eq_refl Hm) as (sf & E & Sf & Nf & _ & If).
    fold f in If. unfold coefficients. rewrite E.
    assert (Ff : forall t, List.length t = List.length vars -> (1 <= list_sum t <= 2 * max)%nat ->
      find_moment (map fst sf) (map snd sf) (map Z.of_nat t) = inr (f t)) by (intros; apply find_spec; auto).
    assert (Fg : forall t g, In (t, g) s -> find_moment (mp_index mp) (mp_target mp) (map Z.of_nat t) = inr g).
    { intros t g I. apply find_spec; auto. apply in_map_iff. exists (t, g). auto. }
    assert (Em : all_okP (map (fun li => all_okP (map (m_entry mp (find_moment (map fst sf) (map snd sf))
        (find_moment (mp_index mp) (mp_target mp)) li) (mp_index mp))) (mp_index mp)) =
      inr (map (fun ig => map (fun jg => f (powers_add (fst ig) (fst jg)) - f (fst ig) * snd jg) s) s)).
    { change (mp_index mp) with (map fst (map zpair s)) at 2 3. rewrite !map_map.
      apply all_okP_map. intros [ti gi] Ii. rewrite !map_map. apply all_okP_map. intros [tj gj] Ij. cbn [zpair fst snd].
      unfold m_entry. rewrite index_add_nat. destruct (Su ti gi Ii) as [Li Si], (Su tj gj Ij) as [Lj Sj].
      rewrite Ff; [|rewrite powers_add_length; congruence|rewrite powers_add_sum by congruence; lia].
      rewrite (Ff ti) by (auto; lia). rewrite (Fg tj gj Ij). reflexivity. }
    rewrite Em. set (m := map _ s). destruct (inv m) as [minv|] eqn:Ei; [|left; split; reflexivity]. right.
    assert (Eu : all_okP (map (fun li => match find_moment (mp_index mp) (mp_target mp) li, find_moment (map fst sf) (map snd sf) li with
        | inr g, inr f => inr (g - f) | _, _ => inl PIndexError end) (mp_index mp)) = inr (map (fun ig => snd ig - f (fst ig)) s)).
    { change (mp_index mp) with (map fst (map zpair s)) at 2. rewrite !map_map. apply all_okP_map.
      intros [t g] I. cbn [zpair fst snd]. destruct (Su t g I) as [Lt St]. rewrite (Fg t g I), Ff by (auto; lia). reflexivity. }
    rewrite Eu. set (u := map (fun ig => snd ig - f (fst ig)) s). set (d := List.length s).
    destruct (Hi m minv Ei) as ([Lm Rm] & one & Pr & Id). fold d in Lm, Rm, Pr, Id.
    assert (Nk : NoDup (map fst s)).
    { rewrite zpair_keys in Sn. apply NoDup_map_inv in Sn. exact Sn. }
    destruct (function_of (list_eq_dec Nat.eq_dec) (map fst s) Nk (map (fun row => dot row u) minv)) as (a & Ea);
      [rewrite !map_length; auto|].
    exists a. split; [rewrite Ea; reflexivity|]. intros t g I. apply In_nth_error in I. destruct I as [i Hn].
    assert (Hid : (i < d)%nat) by (apply nth_error_Some; congruence).
    assert (Ek : forall k, (k < d)%nat -> a (fst (nth k s ([], 0))) = sum_n d (fun l => ent minv k l * nth l u 0)).
    { intros k Hkd. assert (Q : nth k (map a (map fst s)) 0 = nth k (map (fun row => dot row u) minv) 0) by (rewrite <- Ea; reflexivity).
      rewrite map_map in Q. rewrite (nth_map_dep _ s k 0 ([], 0)) in Q by auto. rewrite Q.
      rewrite (nth_map_dep _ minv k 0 []) by lia. unfold ent. apply dot_rsum; [apply Rm, nth_In; lia|].
      unfold u. apply map_length. }
    rewrite (rsum_sum_n _ ([], 0)). fold d.
    assert (Ent : forall k, (k < d)%nat -> ent m i k = f (powers_add t (fst (nth k s ([], 0)))) - f t * snd (nth k s ([], 0))).
    { intros k Hkd. unfold ent, m. rewrite (nth_map_dep _ s i [] ([], 0)) by auto. rewrite (nth_map_dep _ s k 0 ([], 0)) by auto.
      rewrite (nth_error_nth s i _ Hn). reflexivity. }
    transitivity (sum_n d (fun k => sum_n d (fun l => ent m i k * ent minv k l * nth l u 0))).
    { apply sum_n_ext. intros k Hkd. rewrite <- Ent, Ek by auto. rewrite <- sum_n_scale. apply sum_n_ext. intros; ring. }
    rewrite sum_n_swap. transitivity (sum_n d (fun l => (if Nat.eqb i l then 1 else 0) * nth l u 0)).
    { apply sum_n_ext. intros l Hl. rewrite <- (Id i l Hid Hl), (Pr i l Hid Hl), Rmult_comm, <- sum_n_scale. apply sum_n_ext. intros; ring. }
    rewrite (sum_n_one d _ i); auto.
    - rewrite Nat.eqb_refl. unfold u. rewrite (nth_map_dep _ s i 0 ([], 0)) by auto. rewrite (nth_error_nth s i _ Hn). cbn [fst snd]. lra.
    - intros l Hl Nl. replace (Nat.eqb i l) with false; [lra|]. symmetry. apply Nat.eqb_neq. auto.
  Qed.
End Coef.

(** ---- the factor of a hit ---- *)
Lemma term_spec val l : forall vars t c, term c (map (fun v => val v l) vars) (map Z.of_nat t) = Some (c * monomial vars val t l).
Proof.
  induction vars as [|v vars IH]; intros [|k t] c; unfold monomial; cbn [map term combine rprod]; try (f_equal; lra).
  unfold py_pow. rewrite (proj2 (Z.leb_le 0 (Z.of_nat k))) by lia. rewrite Nat2Z.id. cbn [fst snd]. rewrite IH.
  unfold monomial. f_equal. ring.
Qed.

Lemma factor_spec vars val l a s : hit_factor 1 (point_of vars val l) (combine (map a (map fst s)) (map fst (map zpair s)))
  = Some (polynomial vars val s a l).
Proof.
  unfold polynomial, point_of. generalize 1 as c. induction s as [|[t g] s IH]; intros c; cbn [map combine hit_factor rsum fst snd zpair].
  - f_equal. lra.
  - rewrite term_spec. rewrite IH. f_equal. lra.
Qed.

(** ---- the loops ---- *)
Section Loops.
  Variable g : bool.
  Variable w0 : RWorld.
  Variable x : nat -> R.

  Lemma get_after w l v y : similar RNum w0 w -> is_hit w0 l -> is_hit w0 y -> ~ shares_weight g w0 y l ->
    get_number (fst (hit_set w l (weight_name g) (PFloat (v : RNum)))) y (weight_name g) = get_number w y (weight_name g).
  Proof. intros S Hl Hy H. unfold get_number. rewrite (weight_set_other RNum w0); auto. Qed.

  Lemma factor_loop_spec n terms pt P : forall hs (w : RWorld) acc, similar RNum w0 w -> own_weights g w0 hs ->
    (forall l, In l hs -> is_hit w0 l) -> (forall l, In l hs -> get_number w l (weight_name g) = Some (x l)) ->
    (forall l, In l hs -> hit_factor 1 (pt l) terms = Some (P l)) ->
    factor_loop w (weight_name g) n terms (map (fun l => (l, pt l)) hs) acc =
    (@assign RNum g w (map (fun l => (l, x l * P l)) hs), inr (acc + rsum (fun l => P l / INR n) hs)).
  Proof.
    induction hs as [|l hs IH]; intros w acc S [Nd Ow] Hh Hx HP.
    - cbn. rewrite Rplus_0_r. reflexivity.
    - cbn [map factor_loop rsum]. rewrite (HP l), (Hx l) by (left; auto).
      pose proof (hit_set_ok RNum w l g (x l * P l) ltac:(apply S, Hh; left; auto)) as Ok.
      pose proof (similar_set RNum w0 w l g (x l * P l) S) as S'.
      inversion Nd as [|? ? N1 N2]; subst.
      assert (Hx' : forall l', In l' hs -> get_number (fst (hit_set w l (weight_name g) (PFloat (x l * P l : RNum)))) l' (weight_name g) = Some (x l')).
      { intros l' I. rewrite get_after; auto; [apply Hx; right; auto|apply Hh; left; auto|apply Hh; right; auto|].
        apply Ow; [right; auto|left; auto|]. intros ->. contradiction. }
      unfold assign. cbn [fold_left map fst snd].
      change (RNum : Type) with R in *.
      destruct (hit_set w l (weight_name g) _) as [w' ok] eqn:E. cbn [fst snd] in *. subst ok. rewrite IH; auto.
      + f_equal. f_equal. lra.
      + split; auto. intros; apply Ow; auto; right; auto.
      + intros; apply Hh; right; auto.
      + intros; apply HP; right; auto.
  Qed.

  Lemma normalise_loop_spec s : s <> 0 -> forall hs (w : RWorld), similar RNum w0 w -> own_weights g w0 hs ->
    (forall l, In l hs -> is_hit w0 l) -> (forall l, In l hs -> get_number w l (weight_name g) = Some (x l)) ->
    normalise_loop w (weight_name g) hs s = (@assign RNum g w (map (fun l => (l, x l / s)) hs), None).
  Proof.
    intros Hs. induction hs as [|l hs IH]; intros w S [Nd Ow] Hh Hx; [reflexivity|].
    cbn [map normalise_loop]. rewrite (Hx l) by (left; auto). destruct (Req_EM_T s 0); [contradiction|].
    pose proof (hit_set_ok RNum w l g (x l / s) ltac:(apply S, Hh; left; auto)) as Ok.
    pose proof (similar_set RNum w0 w l g (x l / s) S) as S'.
    inversion Nd as [|? ? N1 N2]; subst.
    assert (Hx' : forall l', In l' hs -> get_number (fst (hit_set w l (weight_name g) (PFloat (x l / s : RNum)))) l' (weight_name g) = Some (x l')).
    { intros l' I. rewrite get_after; auto; [apply Hx; right; auto|apply Hh; left; auto|apply Hh; right; auto|].
      apply Ow; [right; auto|left; auto|]. intros ->. contradiction. }
    unfold assign. cbn [fold_left map fst snd].
    change (RNum : Type) with R in *.
    destruct (hit_set w l (weight_name g) _) as [w' ok] eqn:E. cbn [fst snd] in *. subst ok. rewrite IH; auto.
    - split; auto. intros; apply Ow; auto; right; auto.
    - intros; apply Hh; right; auto.
  Qed.

  (** Hits with weights of their own: what each of them is given stays. *)
  Lemma assign_own hs v : own_weights g w0 hs -> (forall l, In l hs -> is_hit w0 l) ->
    forall (w : RWorld) l, similar RNum w0 w -> In l hs ->
    hit_get (@assign RNum g w (map (fun l => (l, v l)) hs)) l (weight_name g) = Some (PFloat (v l : RNum)).
  Proof.
    intros [Nd Ow] Hh w l S I. apply in_split in I. destruct I as (h1 & h2 & E).
    subst hs. rewrite map_app. cbn [map]. apply (assign_last RNum g w0 l _ l _ _); auto.
    - apply Hh. apply in_or_app. right. left. auto.
    - apply Hh. apply in_or_app. right. left. auto.
    - destruct g; reflexivity.
    - intros l' x' I. apply in_map_iff in I. destruct I as (l2 & Q & I). injection Q as <- _.
      assert (I2 : In l2 (h1 ++ l :: h2)) by (apply in_or_app; right; right; auto).
      split; [auto|]. apply Ow; auto; [apply in_or_app; right; left; auto|]. intros ->.
      apply NoDup_remove_2 in Nd. apply Nd, in_or_app. auto.
  Qed.
End Loops.

(** ---- weights ---- *)
Lemma weights_of (w : RWorld) l : is_hit w l -> exists lw gw : R,
  hit_get w l "local_weight" = Some (@PFloat RNum lw) /\ hit_get w l "global_weight" = Some (@PFloat RNum gw) /\ wt w l = lw * gw.
Proof.
  intros H. unfold is_hit in H. destruct (w_hits w l) as [h|] eqn:E; [|congruence].
  do 2 eexists. split; [apply (get_dbl w l h "local_weight" (DStored Vlocal_weight) E eq_refl)|].
  split; [apply (get_dbl w l h "global_weight" DGlobalWeight E eq_refl)|]. rewrite (wt_dbl w l h E). reflexivity.
Qed.

Lemma weight_number (w : RWorld) l g : is_hit w l -> exists x, get_number w l (weight_name g) = Some x /\
  hit_get w l (weight_name g) = Some (@PFloat RNum x).
Proof.
  intros H. destruct (weights_of w l H) as (lw & gw & A & B & _). unfold get_number.
  destruct g; cbn [weight_name]; [exists gw|exists lw]; rewrite ?A, ?B; auto.
Qed.

(** Changing one weight by a factor changes the total weight by the same factor. *)
Lemma wt_factor (w w' : RWorld) l g x c : is_hit w l -> is_hit w' l ->
  hit_get w l (weight_name g) = Some (@PFloat RNum x) -> hit_get w' l (weight_name g) = Some (@PFloat RNum (x * c)) ->
  hit_get w' l (weight_name (negb g)) = hit_get w l (weight_name (negb g)) -> wt w' l = wt w l * c.
Proof.
  intros H H' E E' Eo. destruct (weights_of w l H) as (lw & gw & A & B & ->), (weights_of w' l H') as (lw' & gw' & A' & B' & ->).
  destruct g; cbn [weight_name negb] in *.
  - rewrite B in E. rewrite B' in E'. rewrite A, A' in Eo. injection E as ->. injection E' as ->. injection Eo as ->. ring.
  - rewrite A in E. rewrite A' in E'. rewrite B, B' in Eo. injection E as ->. injection E' as ->. injection Eo as ->. ring.
Qed.

(** ---- averages ---- *)
Lemma monomial_mult val l : forall vars s t, List.length s = List.length vars -> List.length t = List.length vars ->
  monomial vars val (powers_add s t) l = monomial vars val s l * monomial vars val t l.
Proof.
  induction vars as [|v vars IH]; intros [|a s] [|c t] Hs Ht; try discriminate; unfold monomial, powers_add; cbn [map combine rprod fst snd].
  - lra.
  - rewrite pow_add. unfold monomial, powers_add in IH. rewrite IH by (cbn in *; lia). ring.
Qed.

Lemma average_ext w hits u v : (forall l, In l hits -> u l = v l) -> average w hits u = average w hits v.
Proof. intros H. unfold average. f_equal. apply rsum_ext. intros l I. rewrite (H l I). reflexivity. Qed.

Lemma average_poly w hits {A} (s : list A) (c : A -> R) (m : A -> nat -> R) (m0 : nat -> R) : total_weight w hits <> 0 ->
  average w hits (fun l => m0 l + rsum (fun j => c j * m j l) s) =
  average w hits m0 + rsum (fun j => c j * average w hits (m j)) s.
Proof.
  intros H. unfold average. induction s as [|j s IH]; cbn [rsum].
  - rewrite Rplus_0_r. f_equal. apply rsum_ext. intros; ring.
  - transitivity ((rsum (fun l => wt w l * (m0 l + rsum (fun j => c j * m j l) s)) hits +
                   c j * rsum (fun l => wt w l * m j l) hits) / total_weight w hits).
    + f_equal. rewrite <- rsum_scale, <- rsum_plus. apply rsum_ext. intros; ring.
    + transitivity (rsum (fun l => wt w l * (m0 l + rsum (fun j => c j * m j l) s)) hits / total_weight w hits +
                   c j * (rsum (fun l => wt w l * m j l) hits / total_weight w hits)); [field; auto|].
      rewrite IH. ring.
Qed.

(** The average after multiplying the weights by q / s. *)
Lemma average_reweighted w w' hits q s h : total_weight w hits <> 0 -> s <> 0 -> average w hits q <> 0 ->
  (forall l, In l hits -> wt w' l = wt w l * (q l / s)) ->
  average w' hits h = average w hits (fun l => q l * h l) / average w hits q.
Proof.
  intros Ht Hs Hq H. unfold average in *. set (W := total_weight w hits) in *.
  assert (E : forall k, rsum (fun l => wt w' l * k l) hits = rsum (fun l => wt w l * (q l * k l)) hits / s).
  { intros k. unfold Rdiv. rewrite Rmult_comm, <- rsum_scale. apply rsum_ext. intros l I. rewrite (H l I). field. auto. }
  rewrite E. unfold total_weight. rewrite (rsum_ext (wt w') (fun l => wt w' l * 1)) by (intros; ring). rewrite E.
  rewrite (rsum_ext (fun l => wt w l * (q l * 1)) (fun l => wt w l * q l)) by (intros; ring).
  assert (rsum (fun l => wt w l * q l) hits <> 0) by (intros Q; apply Hq; rewrite Q; unfold Rdiv; ring).
  field. auto.
Qed.

Section ApplyMp.
  Variable extra : RWorld -> list nat -> string -> nat -> option RVal.
  Variable inv : Matrix -> option Matrix.
  Variable w : RWorld.
  Variable b : Bunch.
  Variable vars : list string.
  Variable val : string -> nat -> R.
  Hypothesis Hc : w_cur w = 0%nat.
  Hypothesis Wf : wf RNum w.
  Hypothesis Hb : in_step b.
  Hypothesis Hh : forall l, In l (b_hits b) -> is_hit w l.
  Hypothesis Hw : 1 / 1000000000000000 <= Rabs (total_weight w (b_hits b)).
  Hypothesis Hv : vars <> [].
  Hypothesis Hk : forall v, In v vars -> assoc get_dbl_map v <> None.
  Hypothesis Hr : readings extra w (b_hits b) vars val.
  Variable g : bool.
  Hypothesis Ow : own_weights g w (b_hits b).
  Variable max : nat.
  Variable targets : list (list nat * R).
  Hypothesis Tu : usable_targets (List.length vars) max targets.
  Hypothesis Hi : forall m minv, inv m = Some minv -> inverse_of (List.length targets) m minv.
  Variable mp : Multipole.
  Hypothesis Et : set_target_moments (Z.of_nat max) vars (as_ints targets) (map snd targets) = inr mp.

  Let hits := b_hits b.
  Let f := raw_moment w hits vars val.

  Lemma apply_spec :
    (apply_multipole extra inv mp w b g = (w, Some PLinAlg) /\ exists s, Permutation targets s /\
       inv (map (fun ig => map (fun jg => f (powers_add (fst ig) (fst jg)) - f (fst ig) * snd jg) s) s) = None) \/
    exists a, (forall t gt, In (t, gt) targets ->
        rsum (fun jg => (f (powers_add t (fst jg)) - f t * snd jg) * a (fst jg)) targets = gt - f t) /\
      let P := polynomial vars val targets a in
      let s := plain_mean hits P in
      (s = 0 /\ snd (apply_multipole extra inv mp w b g) = Some POtherErr) \/
      (s <> 0 /\ exists w', apply_multipole extra inv mp w b g = (w', None) /\ similar RNum w w' /\
        (forall l x, In l hits -> hit_get w l (weight_name g) = Some (@PFloat RNum x) ->
           hit_get w' l (weight_name g) = Some (@PFloat RNum (x * (P l / s)))) /\
        (forall y, hit_get w' y (weight_name (negb g)) = hit_get w y (weight_name (negb g))) /\
        (forall y n, is_hit w y -> (forall l, In l hits -> ~ shares_weight g w y l) -> hit_get w' y n = hit_get w y n)).
  Proof.
    destruct (set_target_spec (Z.of_nat max) vars max targets Tu) as (s & Ps & Ss & Sn & E). rewrite Et in E. injection E as ->.
    destruct Tu as (Tn & _ & Tp).
    assert (Ne : s <> []) by (intros ->; apply Permutation_sym, Permutation_nil in Ps; congruence).
    assert (Su : forall t gt, In (t, gt) s -> List.length t = List.length vars /\ (1 <= list_sum t <= max)%nat).
    { intros t gt I. apply (Tp t gt). eapply Permutation_in; [apply Permutation_sym; exact Ps|auto]. }
    assert (Hi' : forall m minv, inv m = Some minv -> inverse_of (List.length s) m minv).
    { rewrite <- (Permutation_length Ps). exact Hi. }
    unfold apply_multipole.
    destruct (coefficients_spec extra inv w b vars val Hc Hb Hh Hw Hv Hk Hr max s Ss Sn Ne Su Hi') as [(EL & Ni)|(a & Ea & Eq)].
    { left. rewrite EL. split; [reflexivity|]. exists s. auto. }
    right. exists a. split.
    { intros t gt I. rewrite (rsum_perm _ _ _ Ps). apply Eq. eapply Permutation_in; eauto. }
    rewrite Ea. cbn [mp_vars mp_index]. fold hits. rewrite (columns_spec extra w hits vars val Hr), rows_spec.
    assert (Ep : forall l, polynomial vars val s a l = polynomial vars val targets a l).
    { intros l. unfold polynomial. f_equal. apply rsum_perm, Permutation_sym, Ps. }
    set (P := polynomial vars val targets a). cbv zeta. set (m := plain_mean hits P).
    replace (combine hits (map (point_of vars val) hits)) with (map (fun l => (l, point_of vars val l)) hits)
      by (clear; induction hits as [|l r IH]; cbn [map combine]; [auto|rewrite IH; auto]).
    pose proof (similar_refl RNum w Wf) as Sw.
    set (x := fun l => match get_number w l (weight_name g) with Some x => x | None => 0 end).
    assert (Hx : forall l, In l hits -> get_number w l (weight_name g) = Some (x l) /\ hit_get w l (weight_name g) = Some (@PFloat RNum (x l))).
    { intros l I. destruct (weight_number w l g (Hh l I)) as (y & A & B). unfold x. rewrite A. auto. }
    rewrite (factor_loop_spec g w x (List.length hits) _ (point_of vars val) P hits w 0 Sw Ow Hh).
    2: { intros l I. apply Hx, I. }
    2: { intros l I. rewrite factor_spec, Ep. reflexivity. }
    assert (Em : 0 + rsum (fun l => P l / INR (List.length hits)) hits = m).
    { unfold m, plain_mean. rewrite Rplus_0_l. unfold Rdiv. rewrite (Rmult_comm (rsum P hits)), <- rsum_scale.
      apply rsum_ext. intros; ring. }
    change (R : Type) with R in *. rewrite Em.
    set (w1 := @assign RNum g w (map (fun l => (l, x l * P l)) hits)).
    assert (S1 : similar RNum w w1) by (apply assign_similar; auto).
    assert (H1 : forall l, In l hits -> get_number w1 l (weight_name g) = Some (x l * P l)).
    { intros l I. unfold get_number.
      assert (Q : hit_get w1 l (weight_name g) = Some (@PFloat RNum (x l * P l)))
        by exact (assign_own g w hits (fun l => x l * P l) Ow Hh w l Sw I).
      rewrite Q. reflexivity. }
    destruct (Req_EM_T m 0) as [Z|Z].
    - left. split; auto. destruct hits as [|l r] eqn:Eh.
      + exfalso. unfold hits in Eh. rewrite Eh in Hw. unfold total_weight in Hw. cbn in Hw. rewrite Rabs_R0 in Hw. lra.
      + cbn [normalise_loop]. rewrite (H1 l) by (left; auto). destruct (Req_EM_T m 0); [reflexivity|contradiction].
    - right. split; auto. rewrite (normalise_loop_spec g w (fun l => x l * P l) m Z hits w1 S1 Ow Hh H1).
      eexists. split; [reflexivity|]. split; [apply assign_similar; auto|]. split; [|split].
      + intros l x' I Ex. etransitivity; [exact (assign_own g w hits (fun l => x l * P l / m) Ow Hh w1 l S1 I)|].
        do 2 f_equal. destruct (Hx l I) as [_ B]. rewrite B in Ex. injection Ex as <-. match goal with |- ?a = ?c => change (@eq R a c) end. unfold Rdiv. ring.
      + intros y. rewrite assign_other_weight. unfold w1. apply assign_other_weight.
      + intros y n Hy Hn. rewrite (assign_untouched RNum g w); auto.
        * unfold w1. apply (assign_untouched RNum g w); auto. intros l v I. apply in_map_iff in I. destruct I as (l2 & Q & I).
          injection Q as <- _. split; [auto|apply Hn; auto].
        * intros l v I. apply in_map_iff in I. destruct I as (l2 & Q & I). injection Q as <- _. split; [auto|apply Hn; auto].
  Qed.
End ApplyMp.
