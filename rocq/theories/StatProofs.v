(** Lemmas for the statistics properties that change hits, and for positivity. *)
From Coq Require Import Reals ZArith List Bool String Permutation Lia Lra.
From Verif Require Import Num WeightModel WeightProofs HitcoreModel HitcoreSpec HitcoreProofs
  PyLibModel PyLibProofs BunchModel BunchSpec BunchProofs HitPyModel HitPySpec HitPyProofs
  MomentModel BunchNumModel MomentSpec MomentProofs.
Import ListNotations.
Open Scope string_scope.
Open Scope list_scope.
Open Scope R_scope.

Lemma cur_with_cur (w : RWorld) c : cur_ctx (with_cur w c) = c.
Proof. unfold cur_ctx, with_cur. cbn [w_store st_heap w_cur]. rewrite fupd_same. reflexivity. Qed.

Lemma on_hits_spec f hs : forall (w : RWorld), NoDup hs ->
  (forall l, In l hs -> is_hit w l) ->
  (forall h, snd (fst (f (h, cur_ctx w))) = cur_ctx w /\ snd (f (h, cur_ctx w)) = None) ->
  exists w', on_hits f w hs = (w', None) /\ cur_ctx w' = cur_ctx w /\ w_cur w' = w_cur w /\
    (forall l, ~ In l hs -> w_hits w' l = w_hits w l) /\
    (forall l h, In l hs -> w_hits w l = Some h -> w_hits w' l = Some (fst (fst (f (h, cur_ctx w))))).
Proof.
  induction hs as [|l hs IH]; intros w Hnd Hh Hf; cbn [on_hits].
  - exists w. repeat split; auto. intros l h [].
  - inversion Hnd as [|? ? Hn1 Hn2]; subst. unfold on_hit.
    assert (Hl : is_hit w l) by (apply Hh; left; auto). unfold is_hit in Hl.
    destruct (w_hits w l) as [h|] eqn:E; [|congruence].
    destruct (Hf h) as [F1 F2].
    destruct (f (h, cur_ctx w)) as [[h' c'] e] eqn:Ef. cbn [fst snd] in *. subst c' e.
    set (w1 := with_hit (with_cur w (cur_ctx w)) l h').
    assert (C1 : cur_ctx w1 = cur_ctx w).
    { unfold w1. change (cur_ctx (with_hit (with_cur w (cur_ctx w)) l h')) with (cur_ctx (with_cur w (cur_ctx w))).
      apply cur_with_cur. }
    assert (H1 : forall k, k <> l -> w_hits w1 k = w_hits w k).
    { intros k Hk. unfold w1, with_hit. cbn [w_hits]. rewrite fupd_other; auto. }
    destruct (IH w1) as (w' & W1 & W2 & W3 & W4 & W5); auto.
    + intros k Hk. unfold is_hit. rewrite H1 by (intros ->; contradiction). apply Hh. right; auto.
    + rewrite C1. exact Hf.
    + exists w'. split; auto. split; [congruence|]. split; [rewrite W3; reflexivity|]. split.
      * intros k Hk. rewrite W4 by (intros H; apply Hk; right; auto).
        apply H1. intros ->. apply Hk. left; auto.
      * intros k hk [<-|Hk] Ek.
        -- rewrite W4 by auto. unfold w1, with_hit. cbn [w_hits]. rewrite fupd_same.
           rewrite E in Ek. inversion Ek; subst. rewrite Ef. reflexivity.
        -- assert (k <> l) by (intros ->; contradiction).
           rewrite (W5 k hk); auto; [rewrite C1; reflexivity|]. rewrite H1; auto.
Qed.

(** Weight of a hit from its integers and local weight. *)
Lemma wt_same (w w' : RWorld) l h h' : cur_ctx w' = cur_ctx w ->
  w_hits w l = Some h -> w_hits w' l = Some h' ->
  h_dbl h' Vlocal_weight = h_dbl h Vlocal_weight -> (forall i, h_int h' i = h_int h i) ->
  wt w' l = wt w l.
Proof.
  intros C H H' E1 E2. rewrite (wt_dbl w l h H), (wt_dbl w' l h' H'). rewrite C.
  unfold read_dbl, global_weight, weight_id. rewrite E1, !E2. reflexivity.
Qed.

Lemma fname_local : fname Vlocal_weight = "local_weight".
Proof. reflexivity. Qed.

Lemma stored_val_fname (w : RWorld) l h dv : w_hits w l = Some h ->
  hit_get w l (fname dv) = Some (PFloat (h_dbl h dv)) /\ stored_val w (fname dv) l = h_dbl h dv.
Proof.
  intros H. assert (G : hit_get w l (fname dv) = Some (PFloat (h_dbl h dv))).
  { unfold hit_get. rewrite H. unfold core_get. destruct dv; reflexivity. }
  split; auto. unfold stored_val. rewrite G. reflexivity.
Qed.

Lemma stored_readings extra (w : RWorld) hits vars :
  (forall l, In l hits -> is_hit w l) -> (forall v, In v vars -> In v stored_floats) ->
  readings extra w hits vars (stored_val w).
Proof.
  intros Hh Hv v l Iv Il. specialize (Hh l Il). unfold is_hit in Hh.
  destruct (w_hits w l) as [h|] eqn:E; [|congruence].
  destruct (stored_fname v (Hv v Iv)) as [dv ->].
  destruct (stored_val_fname w l h dv E) as [G1 G2].
  exists (PFloat (h_dbl h dv)). unfold get_hit_variable. rewrite G1. repeat split; [discriminate|].
  rewrite G2. reflexivity.
Qed.

Lemma entry_notin d k : ~ In k (map fst d) -> entry d k = 0.
Proof.
  induction d as [|[k' x] d IH]; simpl; intros H; auto.
  destruct (String.eqb_spec k' k); [exfalso; apply H; auto|]. apply IH. auto.
Qed.

Lemma total_weight_ext (w w' : RWorld) hits : (forall l, In l hits -> wt w' l = wt w l) ->
  total_weight w' hits = total_weight w hits.
Proof. intros H. apply rsum_ext. auto. Qed.

Lemma average_ext (w w' : RWorld) hits (f g : nat -> R) : (forall l, In l hits -> wt w' l = wt w l) ->
  (forall l, In l hits -> f l = g l) -> average w' hits f = average w hits g.
Proof.
  intros H1 H2. unfold average. rewrite (total_weight_ext w w' hits H1). f_equal.
  apply rsum_ext. intros l Hl. rewrite H1, H2; auto.
Qed.

Lemma has_weight_nz (w : RWorld) hits : has_weight w hits -> total_weight w hits <> 0.
Proof. intros [_ H] E. rewrite E, Rabs_R0 in H. lra. Qed.

Lemma average_plus (w : RWorld) hits (f g : nat -> R) :
  average w hits (fun l => f l + g l) = average w hits f + average w hits g.
Proof.
  unfold average. rewrite (rsum_ext _ (fun l => wt w l * f l + wt w l * g l)) by (intros; lra).
  rewrite rsum_plus. unfold Rdiv. lra.
Qed.

Lemma average_scale (w : RWorld) hits c (f : nat -> R) :
  average w hits (fun l => c * f l) = c * average w hits f.
Proof.
  unfold average. rewrite (rsum_ext _ (fun l => c * (wt w l * f l))) by (intros; lra).
  rewrite rsum_scale. unfold Rdiv. lra.
Qed.

Lemma average_const (w : RWorld) hits c : total_weight w hits <> 0 -> average w hits (fun _ => c) = c.
Proof.
  intros H. unfold average. rewrite (rsum_ext _ (fun l => c * wt w l)) by (intros; lra).
  rewrite rsum_scale. fold (total_weight w hits). field. auto.
Qed.

Lemma average_nonneg (w : RWorld) hits (f : nat -> R) : nonneg_weights w hits -> total_weight w hits <> 0 ->
  (forall l, In l hits -> 0 <= f l) -> 0 <= average w hits f.
Proof.
  intros Hw Hn Hf. unfold average.
  assert (0 <= rsum (fun l => wt w l * f l) hits) by (apply rsum_nonneg; intros; apply Rmult_le_pos; auto).
  assert (0 <= total_weight w hits) by (apply rsum_nonneg; auto).
  assert (0 < total_weight w hits) by lra.
  apply Rmult_le_pos; auto. left. apply Rinv_0_lt_compat. auto.
Qed.

(** ---- translation of a bunch ---- *)
Lemma bunch_translate_spec (w : RWorld) b d :
  NoDup (b_hits b) -> (forall l, In l (b_hits b) -> is_hit w l) ->
  float_dict d -> ~ In "local_weight" (map fst d) ->
  exists w', bunch_translate w b (floats d) "" = (w', None) /\ w_cur w' = w_cur w /\
    (forall l, In l (b_hits b) -> is_hit w' l) /\
    (forall l, In l (b_hits b) -> wt w' l = wt w l) /\
    (forall l, ~ In l (b_hits b) -> forall n, hit_get w' l n = hit_get w l n) /\
    (forall v l, In v stored_floats -> In l (b_hits b) -> stored_val w' v l = stored_val w v l + entry d v).
Proof.
  intros Hnd Hh Hd Hl. unfold bunch_translate.
  destruct (on_hits_spec (fun s => translate s (floats d) "") (b_hits b) w Hnd Hh) as (w' & W1 & W2 & W3 & W4 & W5).
  { intros h. pose proof (translate_effect (h, cur_ctx w) d Hd) as T.
    destruct (translate (h, cur_ctx w) (floats d) "") as [s e]. destruct T as (T1 & T2 & _). auto. }
  exists w'. split; auto. split; auto.
  assert (K : forall l, In l (b_hits b) -> exists h h', w_hits w l = Some h /\ w_hits w' l = Some h' /\
     (forall i, h_int h' i = h_int h i) /\ forall v, h_dbl h' v = h_dbl h v + entry d (fname v)).
  { intros l Il. specialize (Hh l Il). unfold is_hit in Hh. destruct (w_hits w l) as [h|] eqn:E; [|congruence].
    pose proof (translate_effect (h, cur_ctx w) d Hd) as T. pose proof (W5 l h Il E) as P. cbv beta in P.
    destruct (translate (h, cur_ctx w) (floats d) "") as [[h' c'] e]. destruct T as (_ & _ & T3 & T4).
    cbn [fst snd] in *. exists h, h'. auto. }
  split; [|split; [|split]].
  - intros l Il. destruct (K l Il) as (h & h' & _ & E & _). unfold is_hit. congruence.
  - intros l Il. destruct (K l Il) as (h & h' & E1 & E2 & E3 & E4). eapply wt_same; eauto.
    rewrite E4, fname_local, entry_notin by auto. apply Rplus_0_r.
  - intros l Il n. unfold hit_get. rewrite (W4 l Il), W2. reflexivity.
  - intros v l Iv Il. destruct (K l Il) as (h & h' & E1 & E2 & E3 & E4). destruct (stored_fname v Iv) as [dv ->].
    rewrite (proj2 (stored_val_fname w' l h' dv E2)), (proj2 (stored_val_fname w l h dv E1)). apply E4.
Qed.

(** ---- positive semi-definiteness ---- *)
Lemma average_sum_n (w : RWorld) hits n (f : nat -> nat -> R) :
  average w hits (fun l => sum_n n (fun i => f i l)) = sum_n n (fun i => average w hits (f i)).
Proof.
  induction n as [|n IH]; cbn [sum_n].
  - unfold average. rewrite (rsum_ext _ (fun _ => 0)) by (intros; lra). rewrite rsum_zero. unfold Rdiv; lra.
  - rewrite average_plus, IH. reflexivity.
Qed.

Lemma sum_n_square n (x : nat -> R) :
  sum_n n (fun i => sum_n n (fun j => x i * x j)) = sum_n n x * sum_n n x.
Proof.
  rewrite (sum_n_ext _ _ (fun i => x i * sum_n n x)).
  2:{ intros i Hi. rewrite <- sum_n_scal. reflexivity. }
  assert (G : forall m c, sum_n m (fun i => x i * c) = sum_n m x * c).
  { induction m as [|m IH]; intros c; cbn [sum_n]; [lra|]. rewrite IH. lra. }
  apply G.
Qed.

Lemma quadratic_nonneg (w : RWorld) hits n (a : nat -> R) (dev : nat -> nat -> R) :
  nonneg_weights w hits -> total_weight w hits <> 0 ->
  0 <= sum_n n (fun i => sum_n n (fun j => a i * a j * average w hits (fun l => dev i l * dev j l))).
Proof.
  intros Hw Hn.
  assert (E : sum_n n (fun i => sum_n n (fun j => a i * a j * average w hits (fun l => dev i l * dev j l)))
              = average w hits (fun l => sum_n n (fun i => a i * dev i l) * sum_n n (fun i => a i * dev i l))).
  { rewrite (average_ext w w hits _ (fun l => sum_n n (fun i => sum_n n (fun j => a i * dev i l * (a j * dev j l)))));
      [|auto|intros l _; symmetry; apply sum_n_square].
    rewrite average_sum_n. apply sum_n_ext. intros i Hi. rewrite average_sum_n.
    apply sum_n_ext. intros j Hj. rewrite <- average_scale. apply average_ext; auto. intros. lra. }
  rewrite E. apply average_nonneg; auto. intros l _. apply Rle_0_sqr.
Qed.

Lemma cauchy_schwarz (w : RWorld) hits (f g : nat -> R) :
  nonneg_weights w hits -> total_weight w hits <> 0 ->
  average w hits (fun l => f l * g l) * average w hits (fun l => f l * g l) <=
  average w hits (fun l => f l * f l) * average w hits (fun l => g l * g l).
Proof.
  intros Hw Hn.
  set (A := average w hits (fun l => f l * f l)). set (B := average w hits (fun l => f l * g l)).
  set (C := average w hits (fun l => g l * g l)).
  assert (Q : forall a b, 0 <= a * a * A + 2 * (a * b) * B + b * b * C).
  { intros a b.
    replace (a * a * A + 2 * (a * b) * B + b * b * C) with
      (average w hits (fun l => (a * f l + b * g l) * (a * f l + b * g l))).
    - apply average_nonneg; auto. intros l _. apply Rle_0_sqr.
    - unfold A, B, C. rewrite <- !average_scale, <- !average_plus. apply average_ext; auto. intros; lra. }
  assert (HA : 0 <= A) by (specialize (Q 1 0); lra).
  assert (HC : 0 <= C) by (specialize (Q 0 1); lra).
  destruct (Req_dec A 0) as [EA|NA].
  - (* A = 0: B must be 0 *)
    assert (B = 0).
    { destruct (Req_dec B 0) as [|NB]; auto. exfalso.
      pose proof (Q (- (C + 1) / (2 * B)) 1) as H. rewrite EA in H.
      assert (E : 2 * (- (C + 1) / (2 * B) * 1) * B = - (C + 1)) by (field; auto). lra. }
    rewrite H. nra.
  - pose proof (Q (- B) A) as H. assert (0 < A) by lra.
    assert (0 <= A * (A * C - B * B)) by lra.
    assert (0 <= A * C - B * B); [|lra].
    apply Rmult_le_reg_l with A; auto. lra.
Qed.

(** ---- the tensor ---- *)
Lemma npow_pow (x : R) k : @npow RNum x k = x ^ k.
Proof. induction k as [|k IH]; cbn [npow pow]; [reflexivity|]. rewrite IH. reflexivity. Qed.

Lemma tensor_product (c : Context RNum) (h : Hit RNum) (fs : list DblKey) (idx : list nat) a :
  fold_left (fun m p => nmul m (npow (read_dbl c h (fst p)) (snd p))) (combine fs idx) (a : RNum)
  = (a : R) * rprod (fun p : DblKey * nat => (read_dbl c h (fst p) : R) ^ snd p) (combine fs idx).
Proof.
  revert idx a. induction fs as [|k fs IH]; intros [|m ms] a; cbn [combine fold_left rprod]; try lra.
  rewrite IH, npow_pow. cbn [nmul RNum fst snd]. lra.
Qed.

Lemma pow_readings extra (w : RWorld) l h vars fs (val : string -> nat -> R) idx hits :
  w_hits w l = Some h -> In l hits ->
  Forall2 (fun v k => assoc get_dbl_map v = Some k) vars fs ->
  readings extra w hits vars val ->
  rprod (fun p : DblKey * nat => (read_dbl (cur_ctx w) h (fst p) : R) ^ snd p) (combine fs idx)
  = rprod (fun p : string * nat => val (fst p) l ^ snd p) (combine vars idx).
Proof.
  intros Hh Hl F Hr. revert idx. induction F as [|v k vars fs Hk F IH]; intros [|i idx]; cbn [combine rprod]; auto.
  rewrite IH by (intros v' l' ? ?; apply Hr; [right|]; auto). cbn [fst snd].
  destruct (Hr v l) as (x & X1 & X2 & X3); auto; [left; auto|].
  unfold get_hit_variable in X1. rewrite (get_dbl w l h v k Hh Hk) in X1. apply some_eq in X1. subst x.
  cbn [real_of] in X3. rewrite <- X3. reflexivity.
Qed.

Lemma moment_tensor_spec extra (w : RWorld) b vars max (val : string -> nat -> R) :
  w_cur w = 0%nat -> in_step b -> (forall l, In l (b_hits b) -> is_hit w l) ->
  1 / 1000000000000000 <= Rabs (total_weight w (b_hits b)) ->
  vars <> [] -> (1 <= max)%nat -> (forall v, In v vars -> assoc get_dbl_map v <> None) ->
  readings extra w (b_hits b) vars val ->
  moment_tensor w (b_core b) vars max =
  Some (map (fun idx => average w (b_hits b)
          (fun l => rprod (fun p => val (fst p) l ^ snd p) (combine vars idx)))
        (index_by_power max (List.length vars))).
Proof.
  intros Hc Hb Hh Hw Hne Hm Hk Hr. unfold moment_tensor.
  destruct vars as [|v0 vars0] eqn:Ev; [congruence|]. rewrite <- Ev in *. clear Hne.
  destruct max as [|max0]; [lia|]. set (mx := S max0) in *.
  assert (E : exists fs, all_some (map (assoc get_dbl_map) vars) = Some fs).
  { clear - Hk. induction vars as [|v vars IH]; [eexists; reflexivity|]. cbn [map all_some].
    destruct IH as [fs IH]; [intros; apply Hk; right; auto|].
    specialize (Hk v (or_introl eq_refl)). destruct (assoc get_dbl_map v) as [k|]; [|congruence].
    rewrite IH. eexists; reflexivity. }
  destruct E as [fs E]. rewrite E. apply all_some_forall in E.
  assert (Ht : nltb (nabs (core_bunch_weight w (b_core b))) tensor_tol = false).
  { rewrite core_weight_total by auto.
    pose proof (nabs_Rabs (total_weight w (b_hits b))) as Ea. rewrite Ea.
    cbn [nltb RNum]. apply Rltb_ge. exact Hw. }
  rewrite Ht. f_equal. apply map_ext. intros idx.
  rewrite core_weight_total by auto. rewrite Hb. unfold average.
  set (W := total_weight w (b_hits b)).
  assert (G : forall hs a, (forall l, In l hs -> In l (b_hits b)) ->
    fold_left (fun s o => match core_hit w o with
      | Some h => nadd s (ndiv (fold_left (fun m p => nmul m (npow (read_dbl (core_ctx w) h (fst p)) (snd p)))
                     (combine fs idx) (read_dbl (core_ctx w) h DWeight)) (W : RNum))
      | None => s end) (map Some hs) (a : RNum)
    = (a : R) + rsum (fun l => wt w l * rprod (fun p : string * nat => val (fst p) l ^ snd p) (combine vars idx)) hs / W).
  { induction hs as [|l hs IH]; intros a Hi; cbn [fold_left map rsum].
    - unfold Rdiv. lra.
    - rewrite IH by (intros; apply Hi; right; auto).
      assert (Hl : In l (b_hits b)) by (apply Hi; left; auto).
      pose proof (Hh l Hl) as Hhl. unfold is_hit in Hhl.
      cbn [core_hit]. destruct (w_hits w l) as [h|] eqn:E2; [|congruence].
      rewrite tensor_product, core_ctx_cur by auto.
      rewrite (pow_readings extra w l h vars fs val idx (b_hits b)) by auto.
      rewrite (wt_dbl w l h E2). cbn [nadd ndiv RNum]. unfold Rdiv. lra. }
  rewrite G by auto. cbn [n0 RNum]. lra.
Qed.
