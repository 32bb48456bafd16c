(** Proofs about the statistics of bunches. *)
From Coq Require Import Reals ZArith List Bool String Permutation Lia Lra.
From Verif Require Import Num WeightModel HitcoreModel HitcoreSpec HitcoreProofs PyLibModel PyLibProofs
  BunchModel BunchSpec BunchProofs MomentModel MomentSpec.
Import ListNotations.
Open Scope string_scope.
Open Scope list_scope.
Open Scope R_scope.

(** ---- sums ---- *)
Lemma rsum_fold {A} (f : A -> R) l a : fold_left (fun s x => s + f x) l a = a + rsum f l.
Proof. revert a. induction l as [|x l IH]; simpl; intros a; [lra|]. rewrite IH. lra. Qed.

Lemma rsum_ext {A} (f g : A -> R) l : (forall x, In x l -> f x = g x) -> rsum f l = rsum g l.
Proof. induction l as [|x l IH]; simpl; intros H; auto. rewrite H, IH; auto. Qed.

Lemma rprod_ext {A} (f g : A -> R) l : (forall x, In x l -> f x = g x) -> rprod f l = rprod g l.
Proof. induction l as [|x l IH]; simpl; intros H; auto. rewrite H, IH; auto. Qed.

Lemma rsum_plus {A} (f g : A -> R) l : rsum (fun x => f x + g x) l = rsum f l + rsum g l.
Proof. induction l as [|x l IH]; simpl; lra. Qed.

Lemma rsum_scale {A} (f : A -> R) c l : rsum (fun x => c * f x) l = c * rsum f l.
Proof. induction l as [|x l IH]; simpl; [lra|]. rewrite IH. lra. Qed.

Lemma rsum_zero {A} l : rsum (fun _ : A => 0) l = 0.
Proof. induction l; simpl; lra. Qed.

Lemma rsum_perm {A} (f : A -> R) l l' : Permutation l l' -> rsum f l = rsum f l'.
Proof. induction 1; simpl; lra. Qed.

Lemma rsum_nonneg {A} (f : A -> R) l : (forall x, In x l -> 0 <= f x) -> 0 <= rsum f l.
Proof.
  induction l as [|x l IH]; simpl; intros H; [lra|].
  assert (0 <= f x) by auto. assert (0 <= rsum f l) by auto. lra.
Qed.

Lemma rsum_le {A} (f g : A -> R) l : (forall x, In x l -> f x <= g x) -> rsum f l <= rsum g l.
Proof.
  induction l as [|x l IH]; simpl; intros H; [lra|].
  assert (f x <= g x) by auto. assert (rsum f l <= rsum g l) by auto. lra.
Qed.

Lemma rsum_map {A B} (g : B -> A) (f : A -> R) l : rsum f (map g l) = rsum (fun x => f (g x)) l.
Proof. induction l as [|x l IH]; simpl; auto. rewrite IH. auto. Qed.

Lemma rsum_app {A} (f : A -> R) l r : rsum f (l ++ r) = rsum f l + rsum f r.
Proof. induction l as [|x l IH]; simpl; [lra|]. rewrite IH. lra. Qed.

Lemma rprod_scale {A} (f : A -> R) c l : rprod (fun x => c * f x) l = c ^ (List.length l) * rprod f l.
Proof. induction l as [|x l IH]; simpl; [lra|]. rewrite IH. lra. Qed.

Lemma rsum_swap {A B} (f : A -> B -> R) la lb :
  rsum (fun a => rsum (f a) lb) la = rsum (fun b => rsum (fun a => f a b) la) lb.
Proof.
  induction la as [|a la IH]; simpl.
  - symmetry. apply rsum_zero.
  - rewrite IH, <- rsum_plus. reflexivity.
Qed.

Lemma rsum_filter0 {A} (f : A -> R) (keep : A -> bool) l :
  (forall x, In x l -> keep x = false -> f x = 0) -> rsum f (filter keep l) = rsum f l.
Proof.
  induction l as [|x l IH]; simpl; intros H; auto. destruct (keep x) eqn:E; simpl.
  - rewrite IH; auto.
  - rewrite IH by auto. rewrite (H x); auto. lra.
Qed.

(** ---- one moment ---- *)
Section M.
  Notation World := (World RNum).
  Variable extra : World -> list nat -> string -> nat -> option (PyVal RNum).

  Lemma core_ctx_cur (w : World) : w_cur w = 0%nat -> core_ctx w = cur_ctx w.
  Proof. intros H. unfold core_ctx, cur_ctx. rewrite H. reflexivity. Qed.

  Lemma get_dbl (w : World) l h n k : w_hits w l = Some h -> assoc get_dbl_map n = Some k ->
    hit_get w l n = Some (PFloat (read_dbl (cur_ctx w) h k)).
  Proof. unfold hit_get, core_get. intros -> ->. reflexivity. Qed.

  Lemma wt_dbl (w : World) l h : w_hits w l = Some h -> wt w l = read_dbl (cur_ctx w) h DWeight.
  Proof. intros H. unfold wt. rewrite (get_dbl w l h "weight" DWeight H eq_refl). reflexivity. Qed.

  Lemma bunch_weight_total (w : World) b : (forall l, In l (b_hits b) -> is_hit w l) ->
    bunch_weight w b = total_weight w (b_hits b).
  Proof.
    intros H. unfold bunch_weight, total_weight.
    assert (G : forall hs a, (forall l, In l hs -> is_hit w l) ->
      fold_left (fun s l => match hit_get w l "weight" with Some v => nadd s (num_of v) | None => s end) hs a
      = (a : R) + rsum (wt w) hs).
    { induction hs as [|l hs IH]; cbn [fold_left rsum]; intros a Hh; [lra|].
      rewrite IH by (intros; apply Hh; right; auto).
      assert (Hl : is_hit w l) by (apply Hh; left; auto). unfold is_hit in Hl.
      destruct (w_hits w l) as [h|] eqn:E; [|congruence].
      rewrite (wt_dbl w l h E), (get_dbl w l h "weight" DWeight E eq_refl). cbn [num_of nadd RNum].
      lra. }
    rewrite G by auto. cbn [nofZ RNum]. simpl. lra.
  Qed.

  Lemma core_weight_total (w : World) b : w_cur w = 0%nat -> in_step b ->
    (forall l, In l (b_hits b) -> is_hit w l) ->
    core_bunch_weight w (b_core b) = total_weight w (b_hits b).
  Proof.
    intros Hc Hb H. unfold core_bunch_weight, total_weight. rewrite Hb.
    assert (G : forall hs a, (forall l, In l hs -> is_hit w l) ->
      fold_left (fun s o => match core_hit w o with Some h => nadd s (read_dbl (core_ctx w) h DWeight) | None => s end)
        (map Some hs) a = (a : R) + rsum (wt w) hs).
    { induction hs as [|l hs IH]; cbn [fold_left rsum map]; intros a Hh; [lra|].
      rewrite IH by (intros; apply Hh; right; auto).
      assert (Hl : is_hit w l) by (apply Hh; left; auto). unfold is_hit in Hl.
      cbn [core_hit]. destruct (w_hits w l) as [h|] eqn:E; [|congruence].
      rewrite (wt_dbl w l h E), core_ctx_cur by auto. cbn [nadd RNum]. lra. }
    rewrite G by auto. cbn [n0 RNum]. lra.
  Qed.

  (** The product in the core. *)
  Lemma core_product (c : Context RNum) (h : Hit RNum) (fs : list DblKey) (ms : list R) a :
    fold_left (fun m p => nmul m (nsub (read_dbl c h (fst p)) (snd p))) (combine fs ms) (a : RNum)
    = (a : R) * rprod (fun p : DblKey * R => (read_dbl c h (fst p) : R) - snd p) (combine fs ms).
  Proof.
    revert ms a. induction fs as [|k fs IH]; intros [|m ms] a; cbn [combine fold_left rprod]; try lra.
    rewrite IH. cbn [nmul nsub RNum fst snd]. lra.
  Qed.

  Lemma all_some_forall {A B} (f : A -> option B) l r : all_some (map f l) = Some r ->
    Forall2 (fun x y => f x = Some y) l r.
  Proof.
    revert r. induction l as [|x l IH]; simpl; intros r H.
    - inversion H. constructor.
    - destruct (f x) as [y|] eqn:E; [|discriminate].
      destruct (all_some (map f l)) as [ys|] eqn:E2; [|discriminate].
      inversion H. constructor; auto.
  Qed.

  Lemma prod_readings (w : World) l h vars fs (val : string -> nat -> R) (m : string -> R) hits :
    w_hits w l = Some h -> In l hits ->
    Forall2 (fun v k => assoc get_dbl_map v = Some k) vars fs ->
    readings extra w hits vars val ->
    rprod (fun p : DblKey * R => (read_dbl (cur_ctx w) h (fst p) : R) - snd p) (combine fs (map m vars))
    = rprod (fun v => val v l - m v) vars.
  Proof.
    intros Hh Hl F Hr. induction F as [|v k vars fs Hk F IH]; cbn [map combine rprod]; auto.
    rewrite IH by (intros v' l' ? ?; apply Hr; [right|]; auto). cbn [fst snd].
    destruct (Hr v l) as (x & X1 & X2 & X3); auto; [left; auto|].
    unfold get_hit_variable in X1. rewrite (get_dbl w l h v k Hh Hk) in X1. inversion X1; subst x.
    cbn [real_of] in X3. rewrite <- X3. reflexivity.
  Qed.

  Lemma some_eq {A} (a b : A) : Some a = Some b -> a = b.
  Proof. congruence. Qed.

  Lemma core_moment_spec (w : World) b vars (fd : list (string * Num.num RNum)) (val : string -> nat -> R) (m : string -> R) (x : R) :
    w_cur w = 0%nat -> in_step b -> (forall l, In l (b_hits b) -> is_hit w l) ->
    readings extra w (b_hits b) vars val ->
    (forall v, In v vars -> map_get fd v = m v) ->
    core_moment w (b_core b) vars fd = Some x ->
    x = average w (b_hits b) (fun l => rprod (fun v => val v l - m v) vars).
  Proof.
    intros Hc Hb Hh Hr Hm. unfold core_moment.
    destruct (all_some (map (assoc get_dbl_map) vars)) as [fs|] eqn:E; [|discriminate].
    apply all_some_forall in E. intros H. apply some_eq in H. rewrite <- H. clear H x.
    rewrite core_weight_total by auto. rewrite Hb. unfold average.
    assert (Em : map (map_get fd) vars = map m vars) by (apply map_ext_in; auto).
    rewrite Em.
    set (W := total_weight w (b_hits b)).
    assert (G : forall hs a, (forall l, In l hs -> In l (b_hits b)) ->
      fold_left (fun s o => match core_hit w o with
        | Some h => nadd s (fold_left (fun m p => nmul m (nsub (read_dbl (core_ctx w) h (fst p)) (snd p)))
                     (combine fs (map m vars)) (ndiv (read_dbl (core_ctx w) h DWeight) (W : RNum)))
        | None => s end) (map Some hs) (a : RNum)
      = (a : R) + rsum (fun l => wt w l * rprod (fun v => val v l - m v) vars) hs / W).
    { induction hs as [|l hs IH]; intros a Hi; cbn [fold_left map rsum].
      - unfold Rdiv. lra.
      - rewrite IH by (intros; apply Hi; right; auto).
        assert (Hl : In l (b_hits b)) by (apply Hi; left; auto).
        pose proof (Hh l Hl) as Hhl. unfold is_hit in Hhl.
        cbn [core_hit]. destruct (w_hits w l) as [h|] eqn:E2; [|congruence].
        rewrite core_product, core_ctx_cur by auto.
        rewrite (prod_readings w l h vars fs val m (b_hits b)) by auto.
        rewrite (wt_dbl w l h E2). cbn [nadd ndiv RNum]. unfold Rdiv. lra. }
    rewrite G by auto. cbn [n0 RNum]. lra.
  Qed.

  Lemma py_change_spec (w : World) hits l (val : string -> nat -> R) (m : string -> R) vars :
    In l hits -> readings extra w hits vars val -> forall a : R,
    py_change extra w hits l vars (map m vars) a = Some (a * rprod (fun v => val v l - m v) vars).
  Proof.
    intros Hl. induction vars as [|v vars IH]; intros Hr a; cbn [py_change map rprod].
    - f_equal. cbn. lra.
    - destruct (Hr v l (or_introl eq_refl) Hl) as (x & X1 & X2 & X3). rewrite X1.
      destruct x as [y|z|]; [| |congruence]; cbn [as_num real_of] in *.
      + rewrite IH by (intros v' l' ? ?; apply Hr; [right|]; auto). f_equal.
        cbn [nmul nsub RNum]. rewrite <- X3. lra.
      + rewrite IH by (intros v' l' ? ?; apply Hr; [right|]; auto). f_equal.
        cbn [nmul nsub nofZ RNum]. rewrite <- X3. lra.
  Qed.

  Lemma py_weight_wt (w : World) l : py_weight w l = wt w l.
  Proof. unfold py_weight, wt. destruct (hit_get w l "weight") as [v|]; auto. Qed.

  Lemma py_moment_spec (w : World) b vars d (val : string -> nat -> R) (m : string -> R) :
    (forall l, In l (b_hits b) -> is_hit w l) ->
    readings extra w (b_hits b) vars val ->
    (forall v, In v vars -> dict_has d v (m v)) ->
    py_moment extra w b vars d =
    inr (average w (b_hits b) (fun l => rprod (fun v => val v l - m v) vars)).
  Proof.
    intros Hh Hr Hd. unfold py_moment.
    assert (E : exists ms, all_some (map (fun v => match assoc d v with Some x => Some x | None => None end) vars) = Some ms
                           /\ all_some (map as_num ms) = Some (map m vars)).
    { clear Hr. induction vars as [|v vars IH]; [exists []; auto|].
      destruct (Hd v (or_introl eq_refl)) as (x & X1 & X2 & X3).
      destruct IH as (ms & M1 & M2); [intros; apply Hd; right; auto|].
      exists (x :: ms). cbn [map all_some]. rewrite X1, M1. split; auto. cbn [map all_some].
      destruct x as [y|z|]; [| |congruence]; cbn [as_num real_of] in *; rewrite M2; cbn [option_map]; rewrite <- X3; reflexivity. }
    destruct E as (ms & -> & ->).
    assert (G : forall hs a, (forall l, In l hs -> In l (b_hits b)) ->
      py_moment_loop extra w (b_hits b) hs vars (map m vars) (a : RNum) =
      Some ((a : R) + rsum (fun l => wt w l * rprod (fun v => val v l - m v) vars) hs)).
    { induction hs as [|l hs IH]; intros a Hi; cbn [py_moment_loop rsum].
      - f_equal. cbn. lra.
      - pose proof (py_change_spec w (b_hits b) l val m vars (Hi l (or_introl eq_refl)) Hr 1) as P.
        cbn [n1 RNum]. rewrite P, IH by (intros; apply Hi; right; auto).
        f_equal. rewrite py_weight_wt. cbn [nadd nmul RNum]. lra. }
    rewrite G by auto. f_equal. unfold average. rewrite bunch_weight_total by auto.
    cbn [ndiv nofZ RNum]. replace (IZR 0) with 0 by reflexivity. rewrite Rplus_0_l. reflexivity.
  Qed.

  Lemma weight_check (w : World) b : has_weight w (b_hits b) ->
    nltb (nabs (bunch_weight w b)) weight_tol = false.
  Proof.
    intros [Hh Hw]. rewrite bunch_weight_total by auto.
    pose proof (nabs_Rabs (total_weight w (b_hits b))) as E. rewrite E.
    cbn [nltb RNum]. apply Rltb_ge. unfold weight_tol. cbn [ndiv n1 nofZ RNum]. exact Hw.
  Qed.

  Lemma float_map_get (d : list (string * PyVal RNum)) (fd : list (string * Num.num RNum)) v (m : R) : float_map d = Some fd ->
    dict_has d v m -> map_get fd v = m.
  Proof.
    intros H (x & X1 & X2 & X3). unfold float_map in H. apply all_some_forall in H. unfold map_get.
    induction H as [|p q d fd Hp H IH]; cbn [assoc] in *; [discriminate|].
    destruct p as [k y]. cbn [fst snd] in *. destruct y as [y| |]; [|discriminate|discriminate].
    inversion Hp; subst q. cbn [assoc]. destruct (String.eqb k v); auto.
    inversion X1; subst x. cbn in X3. exact X3.
  Qed.

  (** The main lemma: both paths compute the weighted average. *)
  Lemma moment_about_spec (w : World) b vars d (val : string -> nat -> R) (m : string -> R) :
    w_cur w = 0%nat -> in_step b -> has_weight w (b_hits b) ->
    readings extra w (b_hits b) vars val ->
    (forall v, In v vars -> dict_has d v (m v)) ->
    moment_about extra no_fixed w b vars d =
    inr (average w (b_hits b) (fun l => rprod (fun v => val v l - m v) vars)).
  Proof.
    intros Hc Hb Hw Hr Hd. unfold moment_about. rewrite weight_check by auto.
    replace (fixed_cov no_fixed vars) with (@None RNum) by reflexivity.
    destruct (float_map d) as [fd|] eqn:E.
    - destruct (core_moment w (b_core b) vars fd) as [x|] eqn:E2.
      + f_equal. eapply core_moment_spec; eauto; [apply Hw|].
        intros v Hv. eapply float_map_get; eauto.
      + apply py_moment_spec; auto. apply Hw.
    - apply py_moment_spec; auto. apply Hw.
  Qed.

  Lemma average_sub1 (w : World) hits (f : nat -> R) :
    average w hits (fun l => (f l - 0) * 1) = average w hits f.
  Proof. unfold average. f_equal. apply rsum_ext. intros. lra. Qed.

  Lemma mean_spec (w : World) b vars (val : string -> nat -> R) :
    w_cur w = 0%nat -> in_step b -> has_weight w (b_hits b) ->
    readings extra w (b_hits b) vars val ->
    exists d, mean extra no_fixed w b vars = inr d /\
      (forall v, In v vars -> assoc d v = Some (@PFloat RNum (average w (b_hits b) (val v)))) /\
      (forall v, assoc d v <> None -> In v vars).
  Proof.
    intros Hc Hb Hw Hr. unfold mean.
    assert (G : forall vs acc, (forall v, In v vs -> In v vars) ->
      (forall v x, assoc acc v = Some x -> x = @PFloat RNum (average w (b_hits b) (val v))) ->
      exists d, mean_loop extra no_fixed w b vs acc = inr d /\
        (forall v, In v vs \/ assoc acc v <> None -> assoc d v = Some (@PFloat RNum (average w (b_hits b) (val v)))) /\
        (forall v, assoc d v <> None -> In v vs \/ assoc acc v <> None)).
    { induction vs as [|v vs IH]; intros acc Hi Ha; cbn [mean_loop].
      - exists acc. split; auto. split; [|auto]. intros v [[]|H].
        destruct (assoc acc v) as [x|] eqn:E; [|congruence]. rewrite (Ha v x E). reflexivity.
      - destruct (assoc acc v) as [x|] eqn:E.
        + destruct (IH acc) as (d & D1 & D2 & D3); [intros; apply Hi; right; auto|auto|].
          exists d. split; auto. split.
          * intros u [[->|H]|H]; apply D2; auto. right. congruence.
          * intros u Hu. destruct (D3 u Hu); [left; right; auto|auto].
        + cbn [no_fixed f_means assoc].
          rewrite (moment_about_spec w b [v] _ val (fun _ => 0)); auto.
          * cbn [rprod]. rewrite average_sub1.
            assert (Happ : forall u, assoc (acc ++ [(v, @PFloat RNum (average w (b_hits b) (val v)))]) u =
              match assoc acc u with Some x => Some x | None =>
                if String.eqb v u then Some (@PFloat RNum (average w (b_hits b) (val v))) else None end).
            { clear. intros u. induction acc as [|[k x] acc IHa]; cbn [app assoc]; auto.
              destruct (String.eqb k u); auto. }
            destruct (IH (acc ++ [(v, @PFloat RNum (average w (b_hits b) (val v)))])) as (d & D1 & D2 & D3).
            -- intros; apply Hi; right; auto.
            -- intros u x. rewrite Happ. destruct (assoc acc u) as [y|] eqn:Eu.
               ++ intros H; inversion H; subst. auto.
               ++ destruct (String.eqb_spec v u) as [->|]; [|discriminate]. intros H; inversion H; auto.
            -- exists d. split; auto. split.
               ++ intros u [[->|H]|H]; apply D2.
                  ** right. rewrite Happ, E, String.eqb_refl. discriminate.
                  ** left; auto.
                  ** right. rewrite Happ. destruct (assoc acc u); congruence.
               ++ intros u Hu. destruct (D3 u Hu) as [H|H]; [left; right; auto|].
                  rewrite Happ in H. destruct (assoc acc u); [right; congruence|].
                  destruct (String.eqb_spec v u); [subst; left; left; auto|congruence].
          * intros v' l [<-|[]] Hl. apply Hr; auto. apply Hi. left; auto.
          * intros v' [<-|[]]. exists (@PFloat RNum 0). cbn [assoc]. rewrite String.eqb_refl.
            repeat split; auto. discriminate. }
    destruct (G vars []) as (d & D1 & D2 & D3); auto; [discriminate|].
    exists d. split; auto. split; [auto|]. intros v Hv. destruct (D3 v Hv) as [H|H]; auto. cbn in H. congruence.
  Qed.

  Lemma moment_spec (w : World) b vars d (val : string -> nat -> R) (m : string -> R) :
    w_cur w = 0%nat -> in_step b -> has_weight w (b_hits b) ->
    readings extra w (b_hits b) vars val -> d <> [] ->
    (forall v, In v vars -> dict_has d v (m v)) ->
    moment extra no_fixed w b vars d =
    inr (average w (b_hits b) (fun l => rprod (fun v => val v l - m v) vars)).
  Proof.
    intros Hc Hb Hw Hr Hne Hd. unfold moment. rewrite weight_check by auto.
    replace (fixed_cov no_fixed vars) with (@None RNum) by reflexivity.
    destruct d as [|p d]; [congruence|]. apply moment_about_spec; auto.
  Qed.

  Lemma moment_central_spec (w : World) b vars (val : string -> nat -> R) :
    w_cur w = 0%nat -> in_step b -> has_weight w (b_hits b) ->
    readings extra w (b_hits b) vars val ->
    moment extra no_fixed w b vars [] =
    inr (average w (b_hits b) (fun l => rprod (fun v => val v l - average w (b_hits b) (val v)) vars)).
  Proof.
    intros Hc Hb Hw Hr. unfold moment. rewrite weight_check by auto.
    replace (fixed_cov no_fixed vars) with (@None RNum) by reflexivity.
    destruct (mean_spec w b vars val) as (d & -> & D1 & D2); auto.
    apply moment_about_spec; auto.
    intros v Hv. exists (@PFloat RNum (average w (b_hits b) (val v))).
    split; auto. split; [discriminate|reflexivity].
  Qed.

  Lemma all_inr_map {A B} (f : A -> MErr + B) (g : A -> B) l :
    (forall x, In x l -> f x = inr (g x)) -> all_inr (map f l) = inr (map g l).
  Proof.
    induction l as [|x l IH]; cbn [map all_inr]; intros H; auto.
    rewrite (H x) by (left; auto). rewrite IH by (intros; apply H; right; auto). reflexivity.
  Qed.

  Lemma assoc_app {A} (d : list (string * A)) k x u :
    assoc (d ++ [(k, x)]) u = match assoc d u with Some y => Some y | None => if String.eqb k u then Some x else None end.
  Proof. induction d as [|[k' y] d IH]; cbn [app assoc]; auto. destruct (String.eqb k' u); auto. Qed.

  (** origin_of: the value used for v: the origin if given, otherwise the mean. *)
  Lemma complete_origin_spec (w : World) b vars (val : string -> nat -> R) d (m : string -> R) :
    w_cur w = 0%nat -> in_step b -> has_weight w (b_hits b) ->
    readings extra w (b_hits b) vars val ->
    (forall v, In v vars -> dict_has d v (m v) \/ (assoc d v = None /\ m v = average w (b_hits b) (val v))) ->
    exists d', complete_origin extra no_fixed w b vars d = inr d' /\
      (forall v, In v vars -> dict_has d' v (m v)).
  Proof.
    intros Hc Hb Hw Hr.
    assert (G : forall vs d, (forall v, In v vs -> In v vars) ->
      (forall v, In v vars -> dict_has d v (m v) \/ (assoc d v = None /\ m v = average w (b_hits b) (val v))) ->
      exists d', complete_origin extra no_fixed w b vs d = inr d' /\
        (forall v, In v vars -> dict_has d' v (m v) \/ (assoc d' v = None /\ m v = average w (b_hits b) (val v))) /\
        (forall v, In v vs -> assoc d' v <> None) /\ (forall v, assoc d v <> None -> assoc d' v <> None)).
    { induction vs as [|v vs IH]; intros d0 Hi Hd; cbn [complete_origin].
      - exists d0. repeat split; auto.
      - destruct (assoc d0 v) as [x|] eqn:E.
        + destruct (IH d0) as (d' & D1 & D2 & D3 & D4); auto; [intros; apply Hi; right; auto|].
          exists d'. repeat split; auto. intros u [<-|Hu]; auto. apply D4. congruence.
        + assert (Hv : In v vars) by (apply Hi; left; auto).
          destruct (mean_spec w b [v] val) as (dm & -> & M1 & M2); auto.
          { intros u l [<-|[]] Hl. apply Hr; auto. }
          rewrite (M1 v) by (left; auto).
          destruct (IH (d0 ++ [(v, @PFloat RNum (average w (b_hits b) (val v)))])) as (d' & D1 & D2 & D3 & D4).
          * intros; apply Hi; right; auto.
          * intros u Hu. destruct (Hd u Hu) as [(y & Y1 & Y2 & Y3)|[Y1 Y2]].
            -- left. exists y. rewrite assoc_app, Y1. auto.
            -- destruct (String.eqb_spec v u) as [->|Hne].
               ++ left. exists (@PFloat RNum (average w (b_hits b) (val u))). rewrite assoc_app, Y1, String.eqb_refl.
                  repeat split; try discriminate; cbn [real_of]; auto.
               ++ right. rewrite assoc_app, Y1. destruct (String.eqb_spec v u); [congruence|auto].
          * exists d'. split; auto. split; auto. split.
            -- intros u [<-|Hu]; auto. apply D4. rewrite assoc_app, E, String.eqb_refl. discriminate.
            -- intros u Hu. apply D4. rewrite assoc_app. destruct (assoc d0 u); congruence. }
    intros Hd. destruct (G vars d) as (d' & D1 & D2 & D3 & D4); auto.
    exists d'. split; auto. intros v Hv. destruct (D2 v Hv) as [H|[H _]]; auto.
    exfalso. eapply D3; eauto.
  Qed.

  Definition cov_entry (w : World) hits (val : string -> nat -> R) (m : string -> R) u v : R :=
    average w hits (fun l => (val u l - m u) * (val v l - m v)).

  Lemma covariance_spec (w : World) b vars (val : string -> nat -> R) d (m : string -> R) :
    w_cur w = 0%nat -> in_step b -> has_weight w (b_hits b) ->
    readings extra w (b_hits b) vars val ->
    (forall v, In v vars -> dict_has d v (m v) \/ (assoc d v = None /\ m v = average w (b_hits b) (val v))) ->
    exists c, covariance_matrix extra no_fixed w b vars d = inr c /\
      c = map (fun i => map (fun j => cov_entry w (b_hits b) val m (nth i vars "") (nth j vars ""))
                 (seq 0 (List.length vars))) (seq 0 (List.length vars)).
  Proof.
    intros Hc Hb Hw Hr Hd. unfold covariance_matrix.
    destruct (complete_origin_spec w b vars val d m) as (d' & -> & D); auto.
    eexists. split; [|reflexivity].
    apply all_inr_map. intros i Hi. apply in_seq in Hi. apply all_inr_map. intros j Hj. apply in_seq in Hj.
    assert (Hi' : In (nth (Nat.min i j) vars "") vars) by (apply nth_In; lia).
    assert (Hj' : In (nth (Nat.max i j) vars "") vars) by (apply nth_In; lia).
    rewrite (moment_spec w b _ d' val m); auto.
    - apply (f_equal (@inr MErr R)). unfold cov_entry, average. apply (f_equal (fun x => x / total_weight w (b_hits b))). apply rsum_ext. intros l _. cbn [rprod].
      destruct (Nat.le_ge_cases i j).
      + rewrite Nat.min_l, Nat.max_r by auto. lra.
      + rewrite Nat.min_r, Nat.max_l by auto. lra.
    - intros u l [<-|[<-|[]]] Hl; apply Hr; auto.
    - destruct (D _ Hi') as (x & X & _). intros E. rewrite E in X. discriminate.
    - intros u [<-|[<-|[]]]; auto.
  Qed.
End M.

(** ---- the moment tensor ---- *)
Lemma repeat_app_nat (x : nat) a b : repeat x (a + b) = repeat x a ++ repeat x b.
Proof. induction a; simpl; congruence. Qed.

Lemma set_nth_pre {A} (pre suf : list A) x y : set_nth (pre ++ y :: suf) (List.length pre) x = pre ++ x :: suf.
Proof. induction pre; simpl; congruence. Qed.

Lemma current_sum pre f :
  (nth 0 (pre ++ repeat 0 (S f)) 0 +
   list_sum (map (fun i => nth i (pre ++ repeat 0 (S f)) 0) (seq 1 (List.length pre - 1))))%nat
  = list_sum pre.
Proof.
  destruct pre as [|x pre]; simpl; [reflexivity|]. f_equal. rewrite Nat.sub_0_r.
  assert (G : forall q pre0, map (fun i => match i with O => x | S m => nth m (pre0 ++ pre ++ q) 0%nat end)
            (seq (S (List.length pre0)) (List.length pre)) = pre).
  { intros q. induction pre as [|y pre IH]; intros pre0; simpl; auto. f_equal.
    - rewrite app_nth2 by lia. rewrite Nat.sub_diag. reflexivity.
    - specialize (IH (pre0 ++ [y])). rewrite app_length in IH. simpl in IH.
      rewrite Nat.add_1_r in IH. rewrite <- IH at 2. apply map_ext. intros [|i]; auto.
      rewrite <- app_assoc. reflexivity. }
  specialize (G (0%nat :: repeat 0%nat f) []). simpl in G. rewrite G. reflexivity.
Qed.

Lemma NoDup_app_iff_local {A} (l r : list A) : NoDup l -> NoDup r ->
  (forall x, In x l -> In x r -> False) -> NoDup (l ++ r).
Proof.
  induction 1 as [|x l Hx Hl IH]; simpl; intros Hr Hd; auto. constructor.
  - rewrite in_app_iff. intros [H|H]; [auto|]. apply (Hd x); auto.
  - apply IH; auto. intros y Hy. apply Hd. auto.
Qed.

Lemma NoDup_flat_map {A B} (f : A -> list B) l : NoDup l -> (forall x, In x l -> NoDup (f x)) ->
  (forall x y, In x l -> In y l -> x <> y -> forall z, In z (f x) -> In z (f y) -> False) ->
  NoDup (flat_map f l).
Proof.
  induction 1 as [|x l Hx Hl IH]; simpl; intros Hf Hd; [constructor|].
  apply NoDup_app_iff_local; auto.
  - apply IH; auto. intros a b Ha Hb. apply Hd; auto.
  - intros z Hz Hz'. apply in_flat_map in Hz'. destruct Hz' as (y & Hy & Hzy).
    apply (Hd x y) with z; auto. intros ->. contradiction.
Qed.

Lemma index_recurse_spec fuel : forall max pre,
  let l := index_by_power_recurse fuel max (List.length pre) (pre ++ repeat 0%nat fuel) in
  NoDup l /\
  forall t, In t l <-> exists s, t = pre ++ s /\ List.length s = fuel /\ s <> repeat 0%nat fuel /\
                        (list_sum pre + list_sum s <= max)%nat.
Proof.
  induction fuel as [|fuel IH]; intros max pre l; unfold l; clear l.
  - cbn [index_by_power_recurse]. split; [constructor|]. intros t. split; [intros []|].
    intros (s & _ & H1 & H2 & _). destruct s; [|discriminate]. simpl in H2. congruence.
  - cbn [index_by_power_recurse]. rewrite current_sum. cbn [repeat].
    assert (Hidx : forall i, set_nth (pre ++ 0%nat :: repeat 0%nat fuel) (List.length pre) i
                              = (pre ++ [i]) ++ repeat 0%nat fuel).
    { intros i. rewrite set_nth_pre, <- app_assoc. reflexivity. }
    assert (Hlen : forall i : nat, S (List.length pre) = List.length (pre ++ [i])).
    { intros i. rewrite app_length. simpl. lia. }
    set (F := fun i => index_by_power_recurse fuel max (S (List.length pre))
                (set_nth (pre ++ 0%nat :: repeat 0%nat fuel) (List.length pre) i) ++
              (if Nat.ltb 0 i then [set_nth (pre ++ 0%nat :: repeat 0%nat fuel) (List.length pre) i] else [])).
    assert (HF : forall i, NoDup (F i) /\ forall t, In t (F i) <-> exists s,
       t = pre ++ i :: s /\ List.length s = fuel /\ (i :: s <> repeat 0%nat (S fuel)) /\
       ((list_sum pre + i + list_sum s <= max)%nat \/ s = repeat 0%nat fuel)).
    { intros i. unfold F. rewrite Hidx, (Hlen i).
      destruct (IH max (pre ++ [i])) as [N1 I1].
      assert (Hs : list_sum (pre ++ [i]) = (list_sum pre + i)%nat).
      { rewrite list_sum_app. simpl. lia. }
      split.
      - destruct (Nat.ltb_spec 0 i) as [Hi|Hi].
        + apply NoDup_app_iff_local; [exact N1|repeat constructor; intros []|].
          intros t H1 [<-|[]]. apply I1 in H1. destruct H1 as (s & S1 & S2 & S3 & _).
          apply app_inv_head in S1. congruence.
        + rewrite app_nil_r. exact N1.
      - intros t. rewrite in_app_iff, I1. split.
        + intros [(s & -> & S2 & S3 & S4)|H].
          * exists s. rewrite <- app_assoc. split; [reflexivity|]. split; auto. split.
            -- cbn [repeat]. intros E. inversion E. congruence.
            -- left. lia.
          * destruct (Nat.ltb_spec 0 i) as [Hi|Hi]; [|destruct H].
            destruct H as [<-|[]]. exists (repeat 0%nat fuel). rewrite <- app_assoc.
            split; [reflexivity|]. rewrite repeat_length. split; auto. split; auto.
            cbn [repeat]. intros E. inversion E. lia.
        + intros (s & -> & S2 & S3 & S4).
          destruct (list_eq_dec Nat.eq_dec s (repeat 0%nat fuel)) as [->|Hne].
          * right. destruct (Nat.ltb_spec 0 i) as [Hi|Hi].
            -- left. rewrite <- app_assoc. reflexivity.
            -- exfalso. apply S3. replace i with 0%nat by lia. reflexivity.
          * left. exists s. rewrite <- app_assoc. split; [reflexivity|]. split; auto. split; auto.
            destruct S4 as [S4|S4]; [|congruence]. lia. }
    split.
    + apply NoDup_flat_map; [apply seq_NoDup|intros i _; apply HF|].
      intros i j Hi Hj Hij t T1 T2. apply HF in T1. apply HF in T2.
      destruct T1 as (s1 & -> & _). destruct T2 as (s2 & T2 & _). apply app_inv_head in T2. inversion T2. congruence.
    + intros t. rewrite in_flat_map. split.
      * intros (i & Hi & Ht). apply in_seq in Hi. apply HF in Ht. destruct Ht as (s & -> & S2 & S3 & S4).
        exists (i :: s). split; auto. split; [simpl; congruence|]. split; auto.
        simpl. destruct S4 as [S4|S4]; [lia|]. subst s.
        assert (Z0 : list_sum (repeat 0%nat fuel) = 0%nat) by (clear; induction fuel; simpl; auto).
        rewrite Z0. lia.
      * intros (s & -> & S2 & S3 & S4). destruct s as [|i s]; [discriminate|]. simpl in S2, S4.
        exists i. split; [apply in_seq; lia|]. apply HF. exists s. split; auto. split; [congruence|]. split; auto.
        left. lia.
Qed.

Lemma index_by_power_spec max n : (1 <= n)%nat ->
  NoDup (index_by_power max n) /\
  (forall t, In t (index_by_power max n) <-> List.length t = n /\ (list_sum t <= max)%nat).
Proof.
  intros Hn. unfold index_by_power.
  destruct (index_recurse_spec n max []) as [N I]. cbn [List.length app list_sum fold_right] in *.
  assert (Z0 : list_sum (repeat 0%nat n) = 0%nat) by (clear; induction n; simpl; auto).
  split.
  - constructor; auto. intros H. apply I in H. destruct H as (s & <- & _ & H & _). congruence.
  - intros t. cbn [In]. rewrite I. split.
    + intros [<-|(s & -> & S1 & S2 & S3)]; [rewrite repeat_length, Z0; lia|]. auto.
    + intros [T1 T2]. destruct (list_eq_dec Nat.eq_dec t (repeat 0%nat n)) as [->|Hne]; auto.
      right. exists t. auto.
Qed.
