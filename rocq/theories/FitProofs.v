(** Lemmas about fit_ellipse. *)
From Coq Require Import Reals List Bool Lia Lra Arith Setoid Morphisms.
From Verif Require Import Num HitPyModel HitPySpec HitPyProofs CommonSpec CommonProofs GridProofs EllipseModel
  EllipseSpec DetProofs MatProofs TransformModel TransformProofs FitModel FitSpec.
Import ListNotations.
Open Scope R_scope.

Lemma wsum_cons p points w ws c S f :
  wsum (p :: points) (w :: ws) (c :: S) f = (if c then w * f p else 0) + wsum points ws S f.
Proof. unfold wsum. cbn [length]. rewrite sum_n_first. reflexivity. Qed.

Lemma wsum_ext points ws S f g : (forall p, In p points -> f p = g p) -> wsum points ws S f = wsum points ws S g.
Proof.
  intros H. apply sum_n_ext. intros i Hi. destruct (nth i S false); auto. rewrite H; auto. apply nth_In. auto.
Qed.
Lemma wsum_plus points ws S f g : wsum points ws S (fun p => f p + g p) = wsum points ws S f + wsum points ws S g.
Proof. unfold wsum. rewrite <- sum_n_plus. apply sum_n_ext. intros i Hi. destruct (nth i S false); ring. Qed.
Lemma wsum_scale points ws S a f : wsum points ws S (fun p => a * f p) = a * wsum points ws S f.
Proof. unfold wsum. rewrite <- sum_n_scale. apply sum_n_ext. intros i Hi. destruct (nth i S false); ring. Qed.
Lemma wsum_sum points ws S n (f : nat -> list R -> R) :
  wsum points ws S (fun p => sum_n n (fun i => f i p)) = sum_n n (fun i => wsum points ws S (f i)).
Proof.
  induction n as [|n IH]; cbn [sum_n].
  - unfold wsum. rewrite sum_n_zero; auto. intros i Hi. destruct (nth i S false); ring.
  - rewrite wsum_plus, IH. reflexivity.
Qed.

Lemma nth_map_lt {A B} (f : A -> B) l i x y : (i < length l)%nat -> nth i (map f l) x = f (nth i l y).
Proof. intros H. rewrite (nth_indep _ x (f y)) by (rewrite map_length; auto). apply map_nth. Qed.

Section Cloud.
  Variables (d : nat) (points : list (list R)) (ws : list R).
  Hypothesis Cl : cloud d points ws.

  Lemma weight_pos i : (i < length points)%nat -> 0 < nth i ws 0.
  Proof. destruct Cl as (_ & _ & _ & L & P). intros Hi. apply P, nth_In. lia. Qed.

  Lemma wsum_nonneg S f : (forall p, 0 <= f p) -> 0 <= wsum points ws S f.
  Proof.
    intros H. unfold wsum. assert (G : forall k, (k <= length points)%nat ->
      0 <= sum_n k (fun i => if nth i S false then nth i ws 0 * f (nth i points []) else 0)).
    { induction k as [|k IH]; intros Hk; cbn [sum_n]; [lra|]. specialize (IH ltac:(lia)).
      destruct (nth k S false); [|lra]. pose proof (weight_pos k Hk). pose proof (H (nth k points [])).
      assert (0 <= nth k ws 0 * f (nth k points [])) by (apply Rmult_le_pos; lra). lra. }
    apply G. auto.
  Qed.

  Lemma total_pos S : (exists i, (i < length points)%nat /\ nth i S false = true) -> 0 < wsum points ws S (fun _ => 1).
  Proof.
    intros (i & Hi & Si). unfold wsum. assert (G : forall k, (k <= length points)%nat ->
      0 <= sum_n k (fun i => if nth i S false then nth i ws 0 * 1 else 0) /\
      ((i < k)%nat -> 0 < sum_n k (fun i => if nth i S false then nth i ws 0 * 1 else 0))).
    { induction k as [|k IH]; intros Hk; cbn [sum_n]; [split; [lra|lia]|]. destruct (IH ltac:(lia)) as [I1 I2].
      pose proof (weight_pos k Hk). split.
      - destruct (nth k S false); lra.
      - intros Hik. destruct (Nat.eq_dec i k) as [->|].
        + rewrite Si. lra.
        + specialize (I2 ltac:(lia)). destruct (nth k S false); lra. }
    apply (proj2 (G _ (Nat.le_refl _)) Hi).
  Qed.

  Lemma none_zero S f : (forall i, (i < length points)%nat -> nth i S false = false) -> wsum points ws S f = 0.
  Proof. intros H. unfold wsum. apply sum_n_zero. intros i Hi. rewrite H; auto. Qed.

  Lemma some_or_none S : (exists i, (i < length points)%nat /\ nth i S false = true) \/
    (forall i, (i < length points)%nat -> nth i S false = false).
  Proof.
    assert (G : forall k, (exists i, (i < k)%nat /\ nth i S false = true) \/ (forall i, (i < k)%nat -> nth i S false = false)).
    { induction k as [|k IH]; [right; lia|]. destruct IH as [(i & Hi & H)|H]; [left; eauto|].
      destruct (nth k S false) eqn:E; [left; eauto|]. right. intros i Hi. destruct (Nat.eq_dec i k) as [->|]; auto. apply H. lia. }
    apply G.
  Qed.

  (** The covariance is <x y> - <x><y>. *)
  Lemma wcov_raw S j k : wcov points ws S j k =
    wsum points ws S (fun p => nth j p 0 * nth k p 0) / wsum points ws S (fun _ => 1) - wmean points ws S j * wmean points ws S k.
  Proof.
    destruct (some_or_none S) as [H|H].
    - pose proof (total_pos S H) as T. unfold wcov.
      set (mj := wmean points ws S j). set (mk := wmean points ws S k).
      rewrite (wsum_ext _ _ _ _ (fun p => nth j p 0 * nth k p 0 + (- mk * nth j p 0 + (- mj * nth k p 0 + mj * mk * 1)))) by (intros; ring).
      rewrite !wsum_plus, !wsum_scale.
      replace (wsum points ws S (fun p => nth j p 0)) with (mj * wsum points ws S (fun _ => 1)) by (unfold mj, wmean; field; lra).
      replace (wsum points ws S (fun p => nth k p 0)) with (mk * wsum points ws S (fun _ => 1)) by (unfold mk, wmean; field; lra).
      field. lra.
    - unfold wcov, wmean. rewrite !(none_zero S) by auto. unfold Rdiv. ring.
  Qed.

  Lemma wcov_sym S j k : wcov points ws S j k = wcov points ws S k j.
  Proof. unfold wcov. f_equal. apply wsum_ext. intros; ring. Qed.

  Lemma wcov_quad S v : 0 <= quad d (wcov points ws S) v.
  Proof.
    assert (E : quad d (wcov points ws S) v =
      wsum points ws S (fun p => Rsqr (sum_n d (fun i => v i * (nth i p 0 - wmean points ws S i)))) / wsum points ws S (fun _ => 1)).
    { unfold quad, wcov.
      rewrite (sum_n_ext d _ (fun i => / wsum points ws S (fun _ => 1) * wsum points ws S (fun p =>
         (v i * (nth i p 0 - wmean points ws S i)) * sum_n d (fun j => v j * (nth j p 0 - wmean points ws S j))))).
      - rewrite sum_n_scale. rewrite <- wsum_sum. unfold Rdiv. rewrite Rmult_comm. f_equal. apply wsum_ext. intros p Hp.
        unfold Rsqr. rewrite <- sum_n_scale. apply sum_n_ext. intros; ring.
      - intros i Hi.
        rewrite (wsum_ext _ _ _ (fun p => v i * (nth i p 0 - wmean points ws S i) * sum_n d _)
                   (fun p => sum_n d (fun j => v i * v j * ((nth i p 0 - wmean points ws S i) * (nth j p 0 - wmean points ws S j))))).
        2:{ intros p Hp. rewrite <- sum_n_scale. apply sum_n_ext. intros; ring. }
        rewrite wsum_sum, <- sum_n_scale. apply sum_n_ext. intros j Hj. rewrite wsum_scale. unfold Rdiv. ring. }
    rewrite E. destruct (some_or_none S) as [H|H].
    - pose proof (total_pos S H). apply Rmult_le_pos; [|apply Rlt_le, Rinv_0_lt_compat; auto].
      apply wsum_nonneg. intros; apply Rle_0_sqr.
    - rewrite !(none_zero S) by auto. unfold Rdiv. lra.
  Qed.

  Lemma wcov_det S : 0 <= det_n d (wcov points ws S).
  Proof. apply det_nonneg; [intros; apply wcov_sym|apply wcov_quad]. Qed.

  (** ---- the helpers ---- *)
  Lemma sum_weight_spec : forall pts w S, length w = length pts -> length S = length pts ->
    sum_weight w S = Some (wsum pts w S (fun _ => 1)).
  Proof.
    induction pts as [|p pts IH]; intros w S Hw HS; destruct w as [|x w], S as [|c S]; try discriminate; [reflexivity|].
    injection Hw as Hw. injection HS as HS. cbn [sum_weight]. rewrite (IH w S Hw HS), wsum_cons. f_equal. destruct c; ring.
  Qed.

  Lemma accumulate_spec f sw : forall pts w S, length w = length pts -> length S = length pts ->
    accumulate f sw (in_the_cut pts w S) = wsum pts w S f / sw.
  Proof.
    assert (G : forall pts w S acc, length w = length pts -> length S = length pts ->
      fold_left (fun acc pw => acc + f (fst pw) / sw * snd pw) (in_the_cut pts w S) acc = acc + wsum pts w S f / sw).
    { induction pts as [|p pts IH]; intros w S acc Hw HS; destruct w as [|x w], S as [|c S]; try discriminate.
      - cbn. unfold wsum. cbn. unfold Rdiv. ring.
      - injection Hw as Hw. injection HS as HS. rewrite wsum_cons. cbn [in_the_cut tl hd]. destruct c.
        + cbn [fold_left fst snd]. rewrite IH by auto. unfold Rdiv. ring.
        + rewrite IH by auto. unfold Rdiv. ring. }
    intros pts w S Hw HS. unfold accumulate. rewrite G by auto. ring.
  Qed.

  Lemma cut_in : forall pts w S pw, In pw (in_the_cut pts w S) -> In (fst pw) pts.
  Proof.
    induction pts as [|p pts IH]; intros w S pw H; [destruct H|]. destruct S as [|c S]; [destruct H|].
    cbn [in_the_cut] in H. destruct c; [destruct H as [<-|H]|]; [left; auto| |]; right; eauto.
  Qed.
  Lemma cut_nil : forall pts w S, length S = length pts -> in_the_cut pts w S <> [] ->
    exists i, (i < length pts)%nat /\ nth i S false = true.
  Proof.
    induction pts as [|p pts IH]; intros w S HS H; [destruct H; reflexivity|]. destruct S as [|c S]; [discriminate|].
    injection HS as HS. destruct c; [exists 0%nat; cbn; split; [lia|auto]|]. cbn [in_the_cut] in H.
    destruct (IH (tl w) S HS H) as (i & Hi & E). exists (Datatypes.S i). cbn. split; [lia|auto].
  Qed.

  Definition mean_list S := map (wmean points ws S) (seq 0 d).
  Definition cov_list S := matrix_of d (wcov points ws S).

  Lemma mean_list_nth S j : (j < d)%nat -> nth j (mean_list S) 0 = wmean points ws S j.
  Proof.
    intros Hj. unfold mean_list. rewrite (nth_indep _ 0 (wmean points ws S 0%nat)) by (rewrite map_length, seq_length; auto).
    rewrite map_nth, seq_nth; auto.
  Qed.

  Lemma get_covariance_spec S : length S = length points ->
    get_covariance points ws S = Some (mean_list S, cov_list S).
  Proof.
    intros HS. destruct Cl as (Hd & Ne & Ln & Lw & Pw). unfold get_covariance. rewrite (sum_weight_spec points ws S Lw HS).
    destruct points as [|p0 ps] eqn:Ep; [congruence|]. rewrite <- Ep in *. rewrite (Ln p0) by (rewrite Ep; left; auto).
    match goal with |- context [negb (forallb ?g ?l)] => assert (F : forallb g l = true) end.
    { apply forallb_forall. intros pw Hpw. apply cut_in in Hpw. rewrite (Ln _ Hpw). apply Nat.leb_refl. }
    rewrite F. cbn [negb].
    match goal with |- context [if ?b then None else _] => assert (G : b = false) end.
    { destruct (in_the_cut points ws S) eqn:Ec; auto. destruct (Req_EM_T _ 0) as [Z|]; auto. exfalso.
      pose proof (cut_nil points ws S HS ltac:(rewrite Ec; discriminate)) as K. pose proof (total_pos S K). lra. }
    rewrite G.
    assert (M : map (fun j => accumulate (fun p => nth j p 0) (wsum points ws S (fun _ => 1)) (in_the_cut points ws S)) (seq 0 d) = mean_list S).
    { unfold mean_list. apply map_ext. intros j. rewrite accumulate_spec by auto. reflexivity. }
    rewrite M. f_equal. f_equal. unfold cov_list, matrix_of. apply map_ext_in. intros i Hi. apply map_ext_in. intros j Hj.
    apply in_seq in Hi. apply in_seq in Hj. rewrite accumulate_spec, !mean_list_nth by (auto; lia). rewrite wcov_raw. reflexivity.
  Qed.

  Lemma det_cov_list S : det (cov_list S) = det_n d (wcov points ws S).
  Proof.
    unfold det, cov_list. destruct (matrix_of_ent d (wcov points ws S)) as [[L _] E]. rewrite L. apply det_eqm. exact E.
  Qed.

  Lemma inverse_det S mi : inverse_of d (cov_list S) mi ->
    eqm d (mul d (wcov points ws S) (ent mi)) one /\ det mi = / det_n d (wcov points ws S) /\ 0 < det_n d (wcov points ws S).
  Proof.
    intros (Sh & o & Pr & Id).
    assert (E : eqm d (mul d (wcov points ws S) (ent mi)) one).
    { intros i j Hi Hj. unfold mul. transitivity (ent o i j).
      - rewrite (Pr i j Hi Hj). apply sum_n_ext. intros k Hk.
        destruct (matrix_of_ent d (wcov points ws S)) as [_ E]. unfold cov_list. rewrite (E i k Hi Hk). reflexivity.
      - rewrite (Id i j Hi Hj). unfold one, unit_row. destruct (Nat.eqb_spec i j), (Nat.eqb_spec j i); congruence. }
    split; auto. pose proof (det_eqm d _ _ E) as D. rewrite det_mul, det_one in D.
    pose proof (wcov_det S) as P. assert (Nz : det_n d (wcov points ws S) <> 0) by (intros Z; rewrite Z in D; lra).
    split; [|lra]. unfold det. replace (length mi) with d by (symmetry; apply Sh).
    apply (Rmult_eq_reg_l (det_n d (wcov points ws S))); auto. rewrite D. field. auto.
  Qed.

  Lemma update_cut_spec S eps_cut mi : inverse_of d (cov_list S) mi -> 
    exists S', update_cut points mi (mean_list S) eps_cut = Some S' /\ inside d points ws eps_cut S S'.
  Proof.
    intros Iv. destruct (inverse_det S mi Iv) as (E & D & P). destruct Cl as (Hd & Ne & Ln & Lw & Pw).
    unfold update_cut. assert (Lm : length (mean_list S) = d) by (unfold mean_list; rewrite map_length, seq_length; auto).
    rewrite Lm.
    assert (F : forallb (fun p => Nat.eqb (length p) d) points = true).
    { apply forallb_forall. intros p Hp. apply Nat.eqb_eq. auto. }
    rewrite F. eexists. split; [reflexivity|]. exists (ent mi). split; [|split].
    - intros i j Hi Hj. pose proof (E i j Hi Hj) as X. unfold mul in X. rewrite X. unfold one, unit_row.
      destruct (Nat.eqb_spec i j), (Nat.eqb_spec j i); congruence.
    - apply map_length.
    - intros i Hi x. rewrite (nth_map_lt _ points i false [] Hi). cbv zeta. rewrite D.
      pose proof (Rinv_0_lt_compat _ P) as P'. destruct (Rlt_dec (/ det_n d (wcov points ws S)) 0); [lra|].
      assert (Q : sum_n d (fun i0 => (nth i0 (nth i points []) 0 - nth i0 (mean_list S) 0) *
                    sum_n d (fun j => ent mi i0 j * (nth j (nth i points []) 0 - nth j (mean_list S) 0))) / sqrt (/ det_n d (wcov points ws S)) =
                  sum_n d (fun a => sum_n d (fun b => x a * ent mi a b * x b)) * sqrt (det_n d (wcov points ws S))).
      { rewrite sqrt_inv. unfold Rdiv. rewrite Rinv_inv. f_equal. apply sum_n_ext. intros a Ha.
        rewrite <- sum_n_scale. apply sum_n_ext. intros b Hb. rewrite !mean_list_nth by auto. unfold x. ring. }
      rewrite Q. destruct (Rlt_dec _ eps_cut); split; intros; auto; try discriminate; try contradiction.
  Qed.

  (** ---- the loop ---- *)
  Variable inv : list (list R) -> option (list (list R)).
  Hypothesis Inv : inverts_all d inv.
  Variable eps_cut : R.

  Lemma fit_loop_S k mean cov old S : fit_loop inv (Datatypes.S k) points ws eps_cut mean cov old S =
    if Rlt_dec float_tolerance (Rabs (det cov - old)) then
      match get_covariance points ws S with
      | None => (mean, cov, S)
      | Some (mean', cov') =>
          match inv cov' with
          | None => (mean', cov', S)
          | Some mat_inv =>
              match update_cut points mat_inv mean' eps_cut with
              | None => (mean', cov', S)
              | Some S' => fit_loop inv k points ws eps_cut mean' cov' (det cov) S'
              end
          end
      end
    else (mean, cov, S).
  Proof. reflexivity. Qed.

  Definition dets (D : R) (chain : list (list bool)) (i : nat) : R :=
    match i with O => D | Datatypes.S i => det_n d (wcov points ws (nth i chain [])) end.

  Lemma loop_spec : forall fuel mean cov old S, length S = length points ->
    float_tolerance < Rabs (det cov - old) ->
    exists chain last S', fit_loop inv (Datatypes.S fuel) points ws eps_cut mean cov old S = (mean_list last, cov_list last, S') /\
      length S' = length points /\
      nth 0 chain [] = S /\ (1 <= length chain <= Datatypes.S fuel)%nat /\ last = nth (length chain - 1) chain [] /\
      (forall i, (Datatypes.S i < length chain)%nat -> inside d points ws eps_cut (nth i chain []) (nth (Datatypes.S i) chain [])) /\
      (forall i, (Datatypes.S i < length chain)%nat ->
         float_tolerance < Rabs (dets (det cov) chain (Datatypes.S i) - dets (det cov) chain i)) /\
      (length chain = Datatypes.S fuel \/ det_n d (wcov points ws last) = 0 \/
       Rabs (dets (det cov) chain (length chain) - dets (det cov) chain (length chain - 1)) <= float_tolerance).
  Proof.
    induction fuel as [|fuel IH]; intros mean cov old S HS Go; rewrite fit_loop_S;
      (destruct (Rlt_dec float_tolerance (Rabs (det cov - old))); [|contradiction]); rewrite get_covariance_spec by auto;
      pose proof (Inv (cov_list S) ltac:(apply matrix_of_ent)) as I; (destruct (inv (cov_list S)) as [mi|]).
    - destruct (update_cut_spec S eps_cut mi I) as (S' & -> & In').
      exists [S], S, S'. cbn. split; auto. split; [destruct In' as (? & _ & L & _); exact L|]. split; auto. split; [lia|]. split; auto. split; [lia|]. split; [lia|auto].
    - exists [S], S, S. cbn. split; auto. split; auto. split; auto. split; [lia|]. split; auto. split; [lia|]. split; [lia|auto].
    - destruct (update_cut_spec S eps_cut mi I) as (S' & -> & In').
      destruct (Rlt_dec float_tolerance (Rabs (det (cov_list S) - det cov))) as [Go'|Stop].
      + assert (HS' : length S' = length points) by (destruct In' as (? & _ & L & _); auto).
        destruct (IH (mean_list S) (cov_list S) (det cov) S' HS' Go') as (chain & last & T & EQ & LT & H0 & HL & Hl & Hi & Hd & Hs).
        rewrite EQ. exists (S :: chain), last, T. split; auto. split; auto. split; auto. cbn [length].
        split; [lia|]. split.
        { rewrite Hl. replace (Datatypes.S (length chain) - 1)%nat with (Datatypes.S (length chain - 1)) by lia. reflexivity. }
        split; [|split].
        * intros i Hlt. destruct i as [|i]; [cbn [nth]; rewrite H0; auto|]. cbn [nth]. apply Hi. lia.
        * intros i Hlt. destruct i as [|i].
          -- cbn [dets nth]. rewrite det_cov_list in Go'. exact Go'.
          -- specialize (Hd i ltac:(lia)). destruct i as [|i]; cbn [dets nth] in *; [rewrite det_cov_list in Hd|]; exact Hd.
        * destruct Hs as [Hs|[Hs|Hs]]; [left; lia|right; left; auto|right; right].
          replace (Datatypes.S (length chain) - 1)%nat with (length chain) by lia.
          destruct (length chain) as [|[|k]]; [lia| |]; cbn [dets nth Nat.sub] in *; [rewrite det_cov_list in Hs|]; exact Hs.
      + rewrite fit_loop_S. destruct (Rlt_dec _ _); [contradiction|].
        exists [S], S, S'. cbn [nth length]. split; auto. split; [destruct In' as (? & _ & L & _); exact L|]. split; auto. split; [lia|]. split; auto.
        split; [lia|]. split; [lia|]. right. right. cbn [dets nth Nat.sub]. rewrite det_cov_list in Stop. lra.
    - exists [S], S, S. cbn [nth length]. split; auto. split; auto. split; auto. split; [lia|]. split; auto. split; [lia|]. split; [lia|].
      right. left. rewrite <- det_cov_list. unfold det. replace (length (cov_list S)) with d; auto.
      symmetry. apply matrix_of_ent.
  Qed.
End Cloud.
