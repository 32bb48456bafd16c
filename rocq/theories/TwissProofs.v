(** Statistics of usable bunches in terms of averages; linear maps of bunches. *)
From Coq Require Import Reals ZArith List Bool String Permutation Lia Lra.
From Verif Require Import Num WeightModel WeightProofs HitcoreModel HitcoreSpec HitcoreProofs
  PyLibModel PyLibProofs BunchModel BunchSpec BunchProofs HitPyModel HitPySpec HitPyProofs
  MomentModel BunchNumModel MomentSpec MomentProofs StatProofs CommonModel CommonSpec
  CommonProofs GridProofs EllipseModel EllipseSpec DetProofs EllipseProofs.
Import ListNotations.
Open Scope string_scope.
Open Scope list_scope.
Open Scope R_scope.

Lemma readings_sub extra (w : RWorld) hits vars vars' val :
  readings extra w hits vars val -> (forall v, In v vars' -> In v vars) -> readings extra w hits vars' val.
Proof. intros H S v l Hv Hl. apply H; auto. Qed.

Section T.
  Variable extra : RWorld -> list nat -> string -> nat -> option RVal.
  Variables (w : RWorld) (b : Bunch) (val : string -> nat -> R).
  Hypothesis U : usable w b.

  Lemma usable_nz : total_weight w (b_hits b) <> 0.
  Proof. destruct U as (_ & _ & H). apply has_weight_nz; auto. Qed.

  Lemma mean_of_spec v : readings extra w (b_hits b) [v] val ->
    mean_of extra no_fixed w b v = inr (average w (b_hits b) (val v)).
  Proof.
    intros Hr. destruct U as (U1 & U2 & U3). unfold mean_of.
    destruct (mean_spec extra w b [v] val U1 U2 U3 Hr) as (d & -> & D & _). cbn [bindE].
    rewrite (D v) by (simpl; auto). reflexivity.
  Qed.

  Lemma about_mean_spec u v : readings extra w (b_hits b) [u; v] val ->
    cov_about_mean extra no_fixed w b u v = inr (covariance w (b_hits b) val u v).
  Proof.
    intros Hr. destruct U as (U1 & U2 & U3). unfold cov_about_mean.
    destruct (mean_spec extra w b [u; v] val U1 U2 U3 Hr) as (d & -> & D & _). cbn [bindE].
    rewrite (moment_spec extra w b [u; v] d val (fun k => average w (b_hits b) (val k)) U1 U2 U3 Hr).
    - f_equal. apply average_ext; auto. intros l _. cbn [rprod]. unfold deviation. ring.
    - intros ->. specialize (D u (or_introl eq_refl)). discriminate.
    - intros k Hk. eexists. split; [apply D; auto|]. split; [discriminate|reflexivity].
  Qed.

  Lemma central_spec u v : readings extra w (b_hits b) [u; v] val ->
    moment extra no_fixed w b [u; v] [] = inr (covariance w (b_hits b) val u v).
  Proof.
    intros Hr. destruct U as (U1 & U2 & U3).
    rewrite (moment_central_spec extra w b [u; v] val U1 U2 U3 Hr).
    f_equal. apply average_ext; auto. intros l _. cbn [rprod]. unfold deviation. ring.
  Qed.

  Lemma about_spec u v d (m : string -> R) : readings extra w (b_hits b) [u; v] val ->
    dict_has d u (m u) -> dict_has d v (m v) ->
    moment extra no_fixed w b [u; v] d =
    inr (average w (b_hits b) (fun l => (val u l - m u) * (val v l - m v))).
  Proof.
    intros Hr Hu Hv. destruct U as (U1 & U2 & U3).
    rewrite (moment_spec extra w b [u; v] d val m U1 U2 U3 Hr).
    - f_equal. apply average_ext; auto. intros l _. cbn [rprod]. ring.
    - intros ->. destruct Hu as (x & E & _). discriminate.
    - intros k [<-|[<-|[]]]; auto.
  Qed.

  Lemma variance_spec v : readings extra w (b_hits b) [v] val ->
    variance extra no_fixed w b v = inr (covariance w (b_hits b) val v v).
  Proof.
    intros Hr. destruct U as (U1 & U2 & U3). unfold variance.
    destruct (mean_spec extra w b [v] val U1 U2 U3 Hr) as (d & -> & D & _). cbn [bindE].
    rewrite (about_spec v v d (fun k => average w (b_hits b) (val k))).
    - reflexivity.
    - eapply readings_sub; eauto. intros k [<-|[<-|[]]]; simpl; auto.
    - eexists. split; [apply D; simpl; auto|]. split; [discriminate|reflexivity].
    - eexists. split; [apply D; simpl; auto|]. split; [discriminate|reflexivity].
  Qed.

  Lemma cov_matrix_spec vars : readings extra w (b_hits b) vars val ->
    exists c, covariance_matrix extra no_fixed w b vars [] = inr c /\ square (List.length vars) c /\
      forall i j, (i < List.length vars)%nat -> (j < List.length vars)%nat ->
        ent c i j = covariance w (b_hits b) val (nth i vars "") (nth j vars "").
  Proof.
    intros Hr. destruct U as (U1 & U2 & U3).
    destruct (covariance_spec extra w b vars val [] (fun v => average w (b_hits b) (val v)) U1 U2 U3 Hr)
      as (c & C1 & C2); [auto|].
    exists c. split; auto. subst c.
    destruct (table_ent (List.length vars) (fun i j => cov_entry w (b_hits b) val
      (fun v => average w (b_hits b) (val v)) (nth i vars "") (nth j vars ""))) as [T1 T2].
    split; auto.
  Qed.

  (** get_emittance from the hits. *)
  Lemma emittance_spec flag axes vars : axes <> [] -> covariance_list axes flag = Some vars ->
    readings extra w (b_hits b) vars val ->
    exists c, covariance_matrix extra no_fixed w b vars [] = inr c /\ square (List.length vars) c /\
      (forall i j, (i < List.length vars)%nat -> (j < List.length vars)%nat ->
        ent c i j = covariance w (b_hits b) val (nth i vars "") (nth j vars "")) /\
      get_emittance extra flag no_fixed w b axes None =
      get_emittance extra flag no_fixed w b axes (Some c) /\
      get_emittance extra flag no_fixed w b axes None =
        let e := root (det c) (List.length vars) in
        if flag then inr e
        else mass <- first_hit w b "mass" ;;
             inr (match e with
                  | Some x => if Req_EM_T mass 0 then None else Some (x / mass)
                  | None => None
                  end).
  Proof.
    intros Ha Hv Hr. destruct (cov_matrix_spec vars Hr) as (c & C1 & C2 & C3).
    exists c. split; auto. split; auto. split; auto.
    assert (vars <> []).
    { intros ->. apply covariance_list_paired in Hv. inversion Hv; subst; congruence. }
    assert (G : get_emittance extra flag no_fixed w b axes (Some c) =
        let e := root (det c) (List.length vars) in
        if flag then inr e
        else mass <- first_hit w b "mass" ;;
             inr (match e with
                  | Some x => if Req_EM_T mass 0 then None else Some (x / mass)
                  | None => None
                  end)).
    { unfold get_emittance. rewrite Hv. cbn [pick_cov bindE]. rewrite (square_is_square _ _ C2).
      destruct vars; [congruence|]. reflexivity. }
    assert (E : get_emittance extra flag no_fixed w b axes None =
                get_emittance extra flag no_fixed w b axes (Some c)).
    { unfold get_emittance. rewrite Hv. unfold pick_cov, cov_picker. cbn [f_covs no_fixed bindE]. rewrite C1. reflexivity. }
    split; auto. rewrite E. exact G.
  Qed.
End T.

(** Mean of a covariance: symmetry and linearity. *)
Lemma covariance_sym (w : RWorld) hits val u v : covariance w hits val u v = covariance w hits val v u.
Proof. apply average_ext; auto. intros. ring. Qed.

Lemma average_deviation (w : RWorld) hits val v : total_weight w hits <> 0 ->
  average w hits (deviation w hits val v) = 0.
Proof.
  intros H. unfold deviation.
  rewrite (average_ext w w hits _ (fun l => val v l + (-1) * average w hits (val v))); auto; [|intros; lra].
  rewrite average_plus, average_const by auto. lra.
Qed.

(** ---- linear maps of a bunch ---- *)
Lemma bunch_abelian_spec (w : RWorld) b ks m t o :
  NoDup (b_hits b) -> (forall l, In l (b_hits b) -> is_hit w l) ->
  NoDup ks -> (forall k, In k ks -> coordinate k) -> square (List.length ks) m ->
  exists w', bunch_abelian w b ks m t o "" = (w', None) /\ w_cur w' = w_cur w /\
    (forall l, In l (b_hits b) -> is_hit w' l) /\
    (forall l, In l (b_hits b) -> wt w' l = wt w l) /\
    (forall l, ~ In l (b_hits b) -> forall n, hit_get w' l n = hit_get w l n) /\
    (forall v l, In v stored_floats -> ~ In v ks -> In l (b_hits b) -> stored_val w' v l = stored_val w v l) /\
    (forall i k l, nth_error ks i = Some k -> In l (b_hits b) ->
       stored_val w' k l = sum_n (List.length ks) (fun j => ent m i j *
         (stored_val w (nth j ks "") l - entry o (nth j ks ""))) + entry t k + entry o k).
Proof.
  intros Hnd Hh Hk Hc Hm. unfold bunch_abelian.
  assert (Hs : forall k, In k ks -> In k stored_floats) by (intros k H; apply Hc; auto).
  destruct (on_hits_spec (fun s => abelian s ks m t o "") (b_hits b) w Hnd Hh) as (w' & W1 & W2 & W3 & W4 & W5).
  { intros h. pose proof (abelian_effect (h, cur_ctx w) ks m t o Hk Hs Hm) as T.
    destruct (abelian (h, cur_ctx w) ks m t o "") as [s e]. destruct T as (T1 & T2 & _). auto. }
  exists w'. split; auto. split; auto.
  assert (K : forall l, In l (b_hits b) -> exists h h', w_hits w l = Some h /\ w_hits w' l = Some h' /\
     (forall i, h_int h' i = h_int h i) /\
     (forall d, ~ In (fname d) ks -> h_dbl h' d = h_dbl h d) /\
     (forall i d, nth_error ks i = Some (fname d) -> h_dbl h' d =
        sum_n (List.length ks) (fun j => ent m i j * (vec (h, cur_ctx w) ks j - entry o (nth j ks "")))
        + entry t (fname d) + entry o (fname d))).
  { intros l Il. specialize (Hh l Il). unfold is_hit in Hh. destruct (w_hits w l) as [h|] eqn:E; [|congruence].
    pose proof (abelian_effect (h, cur_ctx w) ks m t o Hk Hs Hm) as T. pose proof (W5 l h Il E) as P. cbv beta in P.
    destruct (abelian (h, cur_ctx w) ks m t o "") as [[h' c'] e]. destruct T as (_ & _ & T3 & T4 & T5).
    cbn [fst snd] in *. exists h, h'. auto. }
  split; [|split; [|split; [|split]]].
  - intros l Il. destruct (K l Il) as (h & h' & _ & E & _). unfold is_hit. congruence.
  - intros l Il. destruct (K l Il) as (h & h' & E1 & E2 & E3 & E4 & _). eapply wt_same; eauto.
    apply E4. rewrite fname_local. intros I. apply Hc in I. destruct I as [_ I]. congruence.
  - intros l Il n. unfold hit_get. rewrite (W4 l Il), W2. reflexivity.
  - intros v l Iv Nv Il. destruct (K l Il) as (h & h' & E1 & E2 & E3 & E4 & _). destruct (stored_fname v Iv) as [dv ->].
    rewrite (proj2 (stored_val_fname w' l h' dv E2)), (proj2 (stored_val_fname w l h dv E1)). apply E4; auto.
  - intros i k l Ik Il. destruct (K l Il) as (h & h' & E1 & E2 & _ & _ & E5).
    destruct (stored_fname k (Hs k (nth_error_In _ _ Ik))) as [dv ->].
    rewrite (proj2 (stored_val_fname w' l h' dv E2)), (E5 i dv Ik). do 2 f_equal. apply sum_n_ext.
    intros j Hj. do 2 f_equal.
    destruct (nth_error ks j) as [kj|] eqn:Ej; [|apply nth_error_None in Ej; lia].
    rewrite (nth_error_nth ks j "" Ej).
    destruct (stored_fname kj (Hs kj (nth_error_In _ _ Ej))) as [dj ->].
    rewrite (vec_fname _ _ _ _ Ej), (proj2 (stored_val_fname w l h dj E1)). reflexivity.
Qed.

Lemma sum_n_prod n k (f g : nat -> R) :
  sum_n n f * sum_n k g = sum_n n (fun a => sum_n k (fun c => f a * g c)).
Proof.
  induction n as [|n IH]; cbn [sum_n]; [ring|]. rewrite Rmult_plus_distr_r, IH, sum_n_scale. reflexivity.
Qed.

(** A linear map of the readings carries the covariances along. *)
Lemma linear_covariance (w w' : RWorld) hits (val val' : string -> nat -> R) ks (m : Matrix) (s : nat -> R) :
  total_weight w hits <> 0 -> (forall l, In l hits -> wt w' l = wt w l) ->
  (forall i l, (i < List.length ks)%nat -> In l hits ->
     val' (nth i ks "") l = sum_n (List.length ks) (fun j => ent m i j * val (nth j ks "") l) + s i) ->
  forall i j, (i < List.length ks)%nat -> (j < List.length ks)%nat ->
    covariance w' hits val' (nth i ks "") (nth j ks "") =
    sum_n (List.length ks) (fun a => sum_n (List.length ks) (fun c =>
      ent m i a * covariance w hits val (nth a ks "") (nth c ks "") * ent m j c)).
Proof.
  intros Hw Hwt Hv i j Hi Hj. set (n := List.length ks) in *.
  assert (D : forall i l, (i < n)%nat -> In l hits -> deviation w' hits val' (nth i ks "") l =
     sum_n n (fun a => ent m i a * deviation w hits val (nth a ks "") l)).
  { intros i0 l Hi0 Hl. unfold deviation.
    assert (A : average w' hits (val' (nth i0 ks "")) =
       sum_n n (fun a => ent m i0 a * average w hits (val (nth a ks ""))) + s i0).
    { rewrite (average_ext w w' hits _ (fun l => sum_n n (fun a => ent m i0 a * val (nth a ks "") l) + s i0)) by auto.
      rewrite average_plus, average_const, average_sum_n by auto. f_equal. apply sum_n_ext. intros. apply average_scale. }
    rewrite A, Hv by auto.
    rewrite (sum_n_ext n (fun a => ent m i0 a * (val (nth a ks "") l - average w hits (val (nth a ks ""))))
      (fun a => ent m i0 a * val (nth a ks "") l + (-1) * (ent m i0 a * average w hits (val (nth a ks ""))))) by (intros; ring).
    rewrite sum_n_plus, sum_n_scale. fold n. ring. }
  unfold covariance.
  rewrite (average_ext w w' hits _ (fun l => sum_n n (fun a => sum_n n (fun c =>
     ent m i a * ent m j c * (deviation w hits val (nth a ks "") l * deviation w hits val (nth c ks "") l))))); auto.
  - rewrite average_sum_n. apply sum_n_ext. intros a Ha. rewrite average_sum_n. apply sum_n_ext. intros c Hc'.
    rewrite average_scale. ring.
  - intros l Hl. rewrite (D i l), (D j l) by auto.
    rewrite sum_n_prod. apply sum_n_ext. intros a Ha. apply sum_n_ext. intros c Hc'. ring.
Qed.

(** ---- roots, the first hit, positive covariances ---- *)
Lemma root_spec x n : 0 <= x -> (0 < n)%nat -> exists y, root x n = Some y /\ 0 <= y /\ y ^ n = x.
Proof.
  intros Hx Hn. destruct (root x n) as [y|] eqn:E.
  - exists y. split; auto. split; [eapply root_nonneg; eauto|].
    unfold root, power in E. destruct (Rlt_dec x 0); [lra|].
    destruct (Req_EM_T x 0) as [->|N]; injection E as <-.
    + apply pow_i. auto.
    + assert (0 < x) by lra. rewrite <- Rpower_pow by apply exp_pos. rewrite Rpower_mult.
      replace (1 / INR n * INR n) with 1; [apply Rpower_1; auto|].
      field. apply not_0_INR. lia.
  - exfalso. unfold root in E. destruct (Rlt_dec x 0); [lra|discriminate].
Qed.

Lemma pow_inj x y n : 0 <= x -> 0 <= y -> (0 < n)%nat -> x ^ n = y ^ n -> x = y.
Proof.
  intros Hx Hy Hn E. destruct (Rtotal_order x y) as [L|[L|L]]; auto; exfalso.
  - assert (x ^ n < y ^ n); [|lra]. clear E. destruct n as [|n]; [lia|].
    induction n as [|n IH]; [simpl; lra|]. specialize (IH ltac:(lia)).
    change (x * x ^ S n < y * y ^ S n). apply Rmult_le_0_lt_compat; auto. apply pow_le; auto.
  - assert (y ^ n < x ^ n); [|lra]. clear E. destruct n as [|n]; [lia|].
    induction n as [|n IH]; [simpl; lra|]. specialize (IH ltac:(lia)).
    change (y * y ^ S n < x * x ^ S n). apply Rmult_le_0_lt_compat; auto. apply pow_le; auto.
Qed.

Lemma usable_first (w : RWorld) b : usable w b -> exists l r, b_hits b = l :: r /\ is_hit w l.
Proof.
  intros U. pose proof (usable_nz w b U) as N. destruct U as (_ & _ & H & _).
  destruct (b_hits b) as [|l r]; [exfalso; apply N; reflexivity|].
  exists l, r. split; auto. apply H. simpl; auto.
Qed.

Lemma first_hit_spec (w : RWorld) b k : usable w b -> In k stored_floats ->
  first_hit w b k = inr (stored_val w k (hd 0%nat (b_hits b))).
Proof.
  intros U Hk. destruct (usable_first w b U) as (l & r & E & Hl). unfold first_hit. rewrite E. cbn [hd].
  unfold is_hit in Hl. destruct (w_hits w l) as [h|] eqn:Eh; [|congruence].
  destruct (stored_fname k Hk) as [d ->]. destruct (stored_val_fname w l h d Eh) as [G1 G2].
  rewrite G1, G2. reflexivity.
Qed.

Lemma mass_spec (w : RWorld) b : usable w b -> first_hit w b "mass" = inr (bunch_mass w b).
Proof. intros U. apply first_hit_spec; auto. vm_compute; tauto. Qed.

Lemma covariances_quad (w : RWorld) hits val vars v : 
  quad (List.length vars) (covariances w hits val vars) v =
  average w hits (fun l => sum_n (List.length vars) (fun i => v i * deviation w hits val (nth i vars "") l) *
                           sum_n (List.length vars) (fun i => v i * deviation w hits val (nth i vars "") l)).
Proof.
  unfold quad, covariances, covariance. set (n := List.length vars).
  rewrite (average_ext w w hits _ (fun l => sum_n n (fun i => sum_n n (fun j =>
     v i * v j * (deviation w hits val (nth i vars "") l * deviation w hits val (nth j vars "") l))))); auto.
  - rewrite average_sum_n. apply sum_n_ext. intros i Hi. rewrite average_sum_n. apply sum_n_ext. intros j Hj.
    rewrite average_scale. ring.
  - intros l _. rewrite sum_n_prod. apply sum_n_ext. intros i Hi. apply sum_n_ext. intros j Hj. ring.
Qed.

Lemma covariances_det_nonneg (w : RWorld) hits val vars : nonneg_weights w hits -> total_weight w hits <> 0 ->
  0 <= det_n (List.length vars) (covariances w hits val vars).
Proof.
  intros Hw Hn. apply det_nonneg.
  - intros i j _ _. apply covariance_sym.
  - intros v. rewrite covariances_quad. apply average_nonneg; auto. intros l _. apply Rle_0_sqr.
Qed.

Lemma matrix_det n c (f : nat -> nat -> R) : square n c ->
  (forall i j, (i < n)%nat -> (j < n)%nat -> ent c i j = f i j) -> det c = det_n n f.
Proof. intros [L _] H. unfold det. rewrite L. apply det_ext. auto. Qed.

Lemma assoc_In {A} (d : list (string * A)) k v : assoc d k = Some v -> In (k, v) d.
Proof.
  induction d as [|[k' x] d IH]; cbn [assoc]; [discriminate|].
  destruct (String.eqb_spec k' k) as [->|]; intros E; [injection E as ->; simpl; auto|simpl; auto].
Qed.

(** ---- hits from dicts, and vectors added to them ---- *)
Lemma set_int_ok k : In k stored_ints -> forall (h : RHit) (c : RCtx) z, small z ->
  exists i, py_set (h, c) k (PInt z) = ((hit_set_int h i z, c), None).
Proof.
  intros Hk h c z Hz.
  assert (L : in_long z = true).
  { unfold in_long, small in *. apply andb_true_intro. split; apply Z.leb_le; lia. }
  assert (W : wrap32 z = z).
  { unfold wrap32, small in *. rewrite Z.mod_small by lia. lia. }
  assert (G : forall i, assoc set_dbl_map k = None -> assoc set_int_map k = Some i ->
    py_set (h, c) k (PInt z) = ((hit_set_int h i z, c), None)).
  { intros i A B. unfold py_set, core_set. cbn [fst snd]. rewrite A, B. unfold as_int. rewrite L, W. reflexivity. }
  simpl in Hk. repeat (destruct Hk as [<-|Hk]; [eexists; apply G; reflexivity|]). contradiction.
Qed.

Lemma set_all_spec d : stored_dict d -> forall (h : RHit) (c : RCtx),
  exists h', set_all (h, c) d = ((h', c), None) /\
    forall v, h_dbl h' v = match assoc d (fname v) with Some x => real_of x | None => h_dbl h v end.
Proof.
  intros [ND H]. induction d as [|[k x] d IH]; intros h c; cbn [set_all].
  - exists h. split; auto.
  - inversion ND; subst.
    assert (H' : forall k v, In (k, v) d -> (In k stored_floats /\ exists x, v = @PFloat RNum x) \/
      (In k stored_ints /\ exists z, v = PInt z /\ small z)) by (intros; apply H; simpl; auto).
    assert (Nk : assoc d k = None).
    { destruct (assoc d k) eqn:E; auto. exfalso. apply H2. apply assoc_In in E. apply (in_map fst) in E. exact E. }
    destruct (H k x (or_introl eq_refl)) as [[Hk (y & ->)]|[Hk (z & -> & Hz)]].
    + destruct (stored_fname k Hk) as [dv ->]. rewrite set_fname. cbn [fst snd].
      destruct (IH H3 H' (sd h dv y) c) as (h' & E & V). exists h'. split; auto.
      intros v. rewrite V. cbn [assoc]. destruct (String.eqb_spec (fname dv) (fname v)) as [F|F].
      * apply fname_inj in F. subst v. rewrite Nk. rewrite sd_same. reflexivity.
      * destruct (assoc d (fname v)); auto. apply sd_other. congruence.
    + destruct (set_int_ok k Hk h c z Hz) as (i & ->).
      destruct (IH H3 H' (hit_set_int h i z) c) as (h' & E & V). exists h'. split; auto.
      intros v. rewrite V. cbn [assoc]. destruct (String.eqb_spec k (fname v)) as [F|F]; auto.
      exfalso. subst k. clear - Hk. destruct v; simpl in Hk; intuition discriminate.
Qed.

Lemma add_vector_spec vars : NoDup vars -> (forall k, In k vars -> In k stored_floats) ->
  forall v (h : RHit) (c : RCtx), List.length v = List.length vars ->
  exists h', add_vector (h, c) vars v = ((h', c), None) /\
    (forall d, ~ In (fname d) vars -> h_dbl h' d = h_dbl h d) /\
    (forall i d, nth_error vars i = Some (fname d) -> h_dbl h' d = h_dbl h d + nth i v 0).
Proof.
  induction vars as [|k vars IH]; intros ND S v h c L.
  - exists h. destruct v; [|discriminate]. split; auto. split; auto. intros [|i] d E; discriminate.
  - destruct v as [|x v]; [discriminate|]. inversion ND; subst. cbn [add_vector].
    destruct (stored_fname k (S k (or_introl eq_refl))) as [dk ->]. rewrite get_fname. cbn [fst py_add as_real].
    rewrite set_fname. cbn [fst snd].
    destruct (IH H2 (fun k I => S k (or_intror I)) v (sd h dk (h_dbl h dk + x)) c) as (h' & E & F & G); [simpl in L; lia|].
    exists h'. split; auto. split.
    + intros d N. rewrite F by (intros I; apply N; simpl; auto). apply sd_other.
      intros ->. apply N. simpl; auto.
    + intros [|i] d En; cbn [nth_error nth] in *.
      * injection En as En. apply fname_inj in En. subst d. rewrite F by auto. apply sd_same.
      * rewrite (G i d En). f_equal. apply sd_other. intros ->. apply H1. eapply nth_error_In; eauto.
Qed.

Lemma dict_value_new d v : match assoc d (fname v) with Some x => real_of x | None => h_dbl (@hit_new RNum) v end =
  dict_value d (fname v).
Proof.
  induction d as [|[k x] d IH]; cbn [assoc dict_value].
  - destruct v; reflexivity.
  - destruct (String.eqb k (fname v)); auto.
Qed.

Lemma shell_hit_spec (c : RCtx) defaults vars v ev : stored_dict defaults -> NoDup vars ->
  (forall k, In k vars -> In k stored_floats) -> ~ In "energy" vars -> List.length v = List.length vars -> small ev ->
  exists h, shell_hit c defaults vars v ev "energy" = ((h, c), None) /\
    h_int h Ievent = ev /\ on_shell h /\ 0 <= h_dbl h Venergy /\
    (forall d, d <> Venergy -> ~ In (fname d) vars -> h_dbl h d = dict_value defaults (fname d)) /\
    (forall i d, nth_error vars i = Some (fname d) -> h_dbl h d = dict_value defaults (fname d) + nth i v 0).
Proof.
  intros Hd ND S Ne L Hev. unfold shell_hit.
  destruct (set_all_spec defaults Hd hit_new c) as (h1 & -> & V1).
  destruct (add_vector_spec vars ND S v h1 c L) as (h2 & -> & V2 & V3).
  assert (E : py_set (h2, c) "event_number" (PInt ev) = ((hit_set_int h2 Ievent ev, c), None)).
  { assert (I : in_long ev = true).
    { unfold in_long, small in *. apply andb_true_intro. split; apply Z.leb_le; lia. }
    assert (W : wrap32 ev = ev).
    { unfold wrap32, small in *. rewrite Z.mod_small by lia. lia. }
    unfold py_set, core_set. cbn [fst snd]. replace (assoc set_dbl_map "event_number") with (@None DblKey) by reflexivity.
    replace (assoc set_int_map "event_number") with (Some Ievent) by reflexivity.
    unfold as_int. rewrite I, W. reflexivity. }
  rewrite E. cbn [fst snd].
  pose proof (shell_energy (hit_set_int h2 Ievent ev)) as SE.
  destruct (mass_shell (hit_set_int h2 Ievent ev) "energy") as [h r]. destruct SE as (-> & S1 & S2 & S3 & S4).
  exists h. split; auto. split; [rewrite S4; reflexivity|]. split; auto. split; auto.
  assert (K : forall d, d <> Venergy -> h_dbl h d = h_dbl h2 d).
  { intros d N. rewrite S3; [reflexivity|]. intros [E0|[]]; congruence. }
  split.
  - intros d N Nv. rewrite K, V2, V1 by auto. apply dict_value_new.
  - intros i d En. rewrite K, (V3 i d En), V1; [rewrite dict_value_new; reflexivity|].
    intros ->. apply Ne. apply nth_error_In in En. exact En.
Qed.

Lemma shell_hits_spec (c : RCtx) defaults vars : stored_dict defaults -> NoDup vars ->
  (forall k, In k vars -> In k stored_floats) -> ~ In "energy" vars ->
  forall vs ev, (forall v, In v vs -> List.length v = List.length vars) ->
  (0 <= ev)%Z -> (ev + Z.of_nat (List.length vs) <= 2147483648)%Z ->
  exists hs, shell_hits c defaults vars (map Some vs) ev "energy" = inr (hs, c) /\
    List.length hs = List.length vs /\
    forall i h, nth_error hs i = Some h -> exists v, nth_error vs i = Some v /\
      h_int h Ievent = (ev + Z.of_nat i)%Z /\ on_shell h /\ 0 <= h_dbl h Venergy /\
      (forall d, d <> Venergy -> ~ In (fname d) vars -> h_dbl h d = dict_value defaults (fname d)) /\
      (forall i d, nth_error vars i = Some (fname d) -> h_dbl h d = dict_value defaults (fname d) + nth i v 0).
Proof.
  intros Hd ND S Ne. induction vs as [|v vs IH]; intros ev Lv E0 E1; cbn [map shell_hits].
  - exists []. split; auto. split; auto. intros [|i] h E; discriminate.
  - cbn [List.length] in E1.
    destruct (shell_hit_spec c defaults vars v ev Hd ND S Ne) as (h & -> & P); [apply Lv; simpl; auto|unfold small; lia|].
    destruct (IH (ev + 1)%Z) as (hs & -> & L & Q); [intros; apply Lv; simpl; auto|lia|lia|].
    exists (h :: hs). split; auto. split; [simpl; congruence|].
    intros [|i] h' En; cbn [nth_error] in En.
    + injection En as <-. exists v. split; auto. rewrite Z.add_0_r. exact P.
    + destruct (Q i h' En) as (u & U1 & U2 & U3). exists u. split; auto. split; auto. rewrite U2. lia.
Qed.
