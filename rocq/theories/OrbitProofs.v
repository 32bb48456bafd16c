(** Lemmas for the closed orbit finder. *)
From Coq Require Import Reals String List Bool Lia Lra Arith.
From Verif Require Import Num HitPyModel HitPySpec CommonSpec CommonModel CommonProofs GridProofs EllipseModel
  EllipseProofs DetProofs MatProofs TransformModel TransformProofs FitModel FitSpec FitProofs AlgoModel OrbitModel OrbitSpec.
Import ListNotations.
Open Scope R_scope.
Local Notation length := List.length.
Local Notation concat := List.concat.

Section Points.
  Variables (H : Type) (same : H -> H -> bool) (track : H -> list H).
  Hypothesis Refl : forall h, same h h = true.

  Lemma passes_app h chunks e chunk final : passes track same h chunks e ->
    tl (track e) = chunk ++ [final] -> same final e = false -> passes track same h (chunks ++ [chunk ++ [final]]) final.
  Proof.
    induction 1 as [h|h c f cs e E S P IH]; intros T F.
    - cbn. constructor; auto. constructor.
    - cbn. econstructor; eauto.
  Qed.

  Lemma points_loop_spec n start pre : forall fuel acc chunks next,
    acc = pre ++ concat chunks -> passes track same start chunks next ->
    (acc = [] \/ exists l, acc = l ++ [next]) -> (n - length acc <= fuel)%nat ->
    (forall first rest, chunks = first ++ [rest] -> (length (pre ++ concat first) < n)%nat) ->
    match points_loop H same track fuel n acc next with
    | inr hits => exists chunks e, passes track same start chunks e /\ hits = pre ++ concat chunks /\ (n <= length hits)%nat /\
                    forall first rest, chunks = first ++ [rest] -> (length (pre ++ concat first) < n)%nat
    | inl ORuntime => exists chunks e, passes track same start chunks e /\ (length (pre ++ concat chunks) < n)%nat /\
                    ((tl (track e) = [] /\ pre ++ concat chunks <> []) \/
                     exists l final, tl (track e) = l ++ [final] /\ same final e = true)
    | inl OIndex => acc = [] /\ tl (track next) = [] /\ (0 < n)%nat
    | inl _ => False
    end.
  Proof.
    induction fuel as [|k IH]; intros acc chunks next E P L Hf Hlt.
    - cbn [points_loop]. destruct (Nat.ltb_spec (length acc) n); [lia|]. exists chunks, next. subst. auto.
    - cbn [points_loop]. destruct (Nat.ltb_spec (length acc) n) as [Hn|Hn].
      2:{ exists chunks, next. subst. auto. }
      cbv zeta. destruct (tl (track next)) as [|t0 ts] eqn:T.
      + rewrite app_nil_r. destruct L as [->|[l ->]].
        * cbn. cbn in Hn. auto.
        * rewrite rev_app_distr. cbn [rev app]. rewrite Refl. exists chunks, next. subst. rewrite E in *. split; auto. split; auto.
          left. split; auto. rewrite <- E. destruct l; discriminate.
      + destruct (exists_last (l := t0 :: ts) ltac:(discriminate)) as (c & f & Ec). rewrite Ec, app_assoc, rev_app_distr. cbn [rev app].
        destruct (same f next) eqn:Sf.
        * exists chunks, next. split; auto. split; [subst; auto|]. right. exists c, f. rewrite T. auto.
        * specialize (IH ((acc ++ c) ++ [f]) (chunks ++ [c ++ [f]]) f).
          assert (X : (acc ++ c) ++ [f] = pre ++ concat (chunks ++ [c ++ [f]])).
          { rewrite concat_app, E. cbn. rewrite app_nil_r, <- !app_assoc. auto. }
          assert (Y : passes track same start (chunks ++ [c ++ [f]]) f).
          { apply (passes_app start chunks next c f P); auto. rewrite T. auto. }
          specialize (IH X Y). specialize (IH ltac:(right; eauto)). rewrite !app_length in IH. cbn [List.length] in IH.
          specialize (IH ltac:(lia)). 
          specialize (IH ltac:(intros first rest Q; apply app_inj_tail in Q; destruct Q as [-> _]; rewrite <- E; auto)).
          destruct (points_loop H same track k n ((acc ++ c) ++ [f]) f) as [[]|]; auto.
          destruct IH as (Z & _). destruct (acc ++ c); discriminate.
  Qed.

  Lemma points_loop_fuel n : forall f1 f2 acc next r,
    points_loop H same track f1 n acc next = r -> r <> inl ORunning -> (f1 <= f2)%nat ->
    points_loop H same track f2 n acc next = r.
  Proof.
    induction f1 as [|k IH]; intros f2 acc next r E N L.
    - cbn [points_loop] in E. destruct (Nat.ltb (length acc) n) eqn:B; [congruence|]. destruct f2; cbn [points_loop]; rewrite B; auto.
    - destruct f2 as [|f2]; [lia|]. cbn [points_loop] in *. destruct (Nat.ltb (length acc) n); auto. cbv zeta in *.
      destruct (rev (acc ++ tl (track next))) as [|f l]; auto. destruct (same f next); auto. apply IH; auto. lia.
  Qed.
End Points.

Lemma move_read {H} vars (get : H -> string -> R) (set : H -> string -> R -> H) : read_write vars get set ->
  forall keys values h, (forall k, In k keys -> In k vars) -> NoDup keys -> length values = length keys ->
  (forall j k, nth_error keys j = Some k -> get (move H set h keys values) k = nth j values 0) /\
  (forall v, In v vars -> ~ In v keys -> get (move H set h keys values) v = get h v).
Proof.
  intros RW. induction keys as [|k keys IH]; intros values h Hv Nd Hl; destruct values as [|x values]; try discriminate.
  - split; [intros [|j] v E; discriminate|auto].
  - inversion Nd as [|? ? Ni Nd']; subst. injection Hl as Hl. unfold move. cbn [combine fold_left fst snd].
    destruct (IH values (set h k x)) as [A B]; [intros; apply Hv; right; auto|auto|auto|].
    assert (Kv : In k vars) by (apply Hv; left; auto). split.
    + intros [|j] v E.
      * injection E as <-. etransitivity; [apply (B k Kv Ni)|]. rewrite RW by auto. rewrite String.eqb_refl. reflexivity.
      * apply (A j v E).
    + intros v Iv Nv. etransitivity; [apply (B v Iv); intros I; apply Nv; right; auto|]. rewrite RW by auto.
      destruct (String.eqb_spec v k) as [->|]; auto. exfalso. apply Nv. left. auto.
Qed.

(** ---- noise ---- *)
Section Noise.
  Variables (d : nat) (points : list (list R)) (ws : list R).
  Hypothesis Cl : cloud d points ws.

  Notation W S := (wsum points ws S (fun _ => 1)).
  Notation y S p := (fun a => nth a p 0 - wmean points ws S a).

  Lemma cov_total S j k : wcov points ws S j k * W S =
    wsum points ws S (fun p => (nth j p 0 - wmean points ws S j) * (nth k p 0 - wmean points ws S k)).
  Proof.
    unfold wcov. destruct (some_or_none points S) as [E|E].
    - pose proof (total_pos d points ws Cl S E). field. lra.
    - rewrite !(none_zero points ws S) by auto. ring.
  Qed.

  Lemma quad_wsum S v : quad d (wcov points ws S) v * W S =
    wsum points ws S (fun p => Rsqr (sum_n d (fun i => v i * (nth i p 0 - wmean points ws S i)))).
  Proof.
    unfold quad. rewrite Rmult_comm, <- sum_n_scale.
    rewrite (sum_n_ext d _ (fun i => wsum points ws S (fun p =>
       (v i * (nth i p 0 - wmean points ws S i)) * sum_n d (fun j => v j * (nth j p 0 - wmean points ws S j))))).
    - rewrite <- wsum_sum. apply wsum_ext. intros p Hp. unfold Rsqr. rewrite <- sum_n_scale. apply sum_n_ext. intros; ring.
    - intros i Hi. rewrite <- sum_n_scale.
      rewrite (wsum_ext points ws S (fun p => v i * (nth i p 0 - wmean points ws S i) * _) (fun p => sum_n d (fun j => v i * v j * ((nth i p 0 - wmean points ws S i) * (nth j p 0 - wmean points ws S j))))).
      2:{ intros p Hp. rewrite <- sum_n_scale. apply sum_n_ext. intros; ring. }
      rewrite wsum_sum. apply sum_n_ext. intros j Hj. rewrite wsum_scale, <- cov_total. ring.
  Qed.

  Variables (S : list bool) (Vi : nat -> nat -> R).
  Hypothesis HVi : inverse_fun d (wcov points ws S) Vi.

  Lemma distance_total : wsum points ws S (distance d Vi (wmean points ws S)) = W S * INR d.
  Proof.
    unfold distance.
    rewrite (wsum_sum points ws S d (fun a p => sum_n d (fun b => (nth a p 0 - wmean points ws S a) * Vi a b * (nth b p 0 - wmean points ws S b)))).
    rewrite (sum_n_ext d _ (fun a => sum_n d (fun b => W S * (wcov points ws S b a * Vi a b)))).
    2:{ intros a Ha. rewrite (wsum_sum points ws S d (fun b p => (nth a p 0 - wmean points ws S a) * Vi a b * (nth b p 0 - wmean points ws S b))).
        apply sum_n_ext. intros b Hb.
        rewrite (wsum_ext _ _ _ _ (fun p => Vi a b * ((nth b p 0 - wmean points ws S b) * (nth a p 0 - wmean points ws S a)))) by (intros; ring).
        rewrite wsum_scale, <- cov_total. ring. }
    rewrite sum_n_swap.
    rewrite (sum_n_ext d _ (fun b => W S * 1)).
    2:{ intros b Hb. rewrite sum_n_scale, (HVi b b Hb Hb), Nat.eqb_refl. reflexivity. }
    rewrite sum_n_scale. f_equal. clear. induction d as [|n IH]; [reflexivity|]. cbn [sum_n]. rewrite IH, S_INR. lra.
  Qed.

  Lemma solve (v : nat -> R) a : (a < d)%nat ->
    sum_n d (fun b => wcov points ws S a b * sum_n d (fun c => Vi b c * v c)) = v a.
  Proof.
    intros Ha. rewrite (sum_n_ext d _ (fun b => sum_n d (fun c => v c * (wcov points ws S a b * Vi b c)))).
    2:{ intros b Hb. rewrite <- sum_n_scale. apply sum_n_ext. intros; ring. }
    rewrite sum_n_swap, (sum_n_one d _ a); auto.
    - rewrite sum_n_scale, (HVi a a Ha Ha), Nat.eqb_refl. ring.
    - intros c Hc N. rewrite sum_n_scale, (HVi a c Ha Hc). destruct (Nat.eqb_spec a c); [congruence|ring].
  Qed.

  Lemma distance_quad p : distance d Vi (wmean points ws S) p =
    quad d (wcov points ws S) (fun b => sum_n d (fun c => Vi b c * (nth c p 0 - wmean points ws S c))).
  Proof.
    unfold quad, distance. set (v := fun c => nth c p 0 - wmean points ws S c).
    set (u := fun b => sum_n d (fun c => Vi b c * v c)).
    transitivity (sum_n d (fun a => v a * u a)).
    - apply sum_n_ext. intros a Ha. unfold u. rewrite <- sum_n_scale. apply sum_n_ext. intros; unfold v; ring.
    - apply sum_n_ext. intros a Ha. change (sum_n d (fun c : nat => Vi a c * (nth c p 0 - wmean points ws S c))) with (u a).
      rewrite (sum_n_ext d _ (fun j => u a * (wcov points ws S a j * u j))) by (intros; unfold u, v; ring).
      rewrite sum_n_scale. unfold u at 3. rewrite (solve v a Ha). ring.
  Qed.

  Lemma distance_nonneg p : 0 <= distance d Vi (wmean points ws S) p.
  Proof. rewrite distance_quad. apply (wcov_quad d points ws Cl). Qed.

  (** No chosen point is further out than the total weight over its own. *)
  Lemma distance_bound i : (i < length points)%nat -> nth i S false = true ->
    nth i ws 0 * distance d Vi (wmean points ws S) (nth i points []) <= W S.
  Proof.
    intros Hi Hs. set (p := nth i points []). set (q := distance d Vi (wmean points ws S) p).
    set (u := fun b => sum_n d (fun c => Vi b c * (nth c p 0 - wmean points ws S c))).
    pose proof (distance_nonneg p) as Q0. fold q in Q0.
    assert (Qu : sum_n d (fun a => u a * (nth a p 0 - wmean points ws S a)) = q).
    { unfold q, distance. apply sum_n_ext. intros a Ha. unfold u. rewrite Rmult_comm, <- sum_n_scale. apply sum_n_ext. intros; ring. }
    pose proof (quad_wsum S u) as E. unfold u at 1 in E. rewrite <- (distance_quad p) in E. fold q in E.
    pose proof (weight_pos d points ws Cl i Hi) as Pw.
    assert (G : nth i ws 0 * (q * q) <= q * W S).
    { rewrite E. unfold wsum.
      assert (K : forall f k, (forall x, 0 <= f x) -> (k <= length points)%nat ->
        0 <= sum_n k (fun i0 => if nth i0 S false then nth i0 ws 0 * f (nth i0 points []) else 0) /\
        ((i < k)%nat -> nth i ws 0 * f p <= sum_n k (fun i0 => if nth i0 S false then nth i0 ws 0 * f (nth i0 points []) else 0))).
      { intros f k Hf. induction k as [|k IH]; intros Hk; [split; [cbn; lra|lia]|]. destruct (IH ltac:(lia)) as [I1 I2]. cbn [sum_n].
        pose proof (weight_pos d points ws Cl k ltac:(lia)). pose proof (Rmult_le_pos _ _ (Rlt_le _ _ H) (Hf (nth k points []))).
        split; [destruct (nth k S false); lra|]. intros Hik. destruct (Nat.eq_dec i k) as [->|].
        - rewrite Hs. fold p in H0 |- *. fold p. lra.
        - specialize (I2 ltac:(lia)). destruct (nth k S false); lra. }
      pose proof (proj2 (K (fun p => Rsqr (sum_n d (fun i => u i * (nth i p 0 - wmean points ws S i)))) (length points)
         (fun x => Rle_0_sqr _) (Nat.le_refl _)) Hi) as G. cbv beta in G. rewrite Qu in G. exact G. }
    destruct (Req_dec q 0) as [Z|N].
    - rewrite Z, Rmult_0_r. apply (wsum_nonneg d points ws Cl). intros; lra.
    - apply (Rmult_le_reg_l q); [lra|]. lra.
  Qed.

  (** The inverse of the scaled covariance. *)
  Lemma scaled_inverse r Ei : r <> 0 -> inverse_fun d (fun i j => wcov points ws S i j / r) Ei ->
    forall i j, (i < d)%nat -> (j < d)%nat -> Ei i j = r * Vi i j.
  Proof.
    intros Hr HE.
    assert (A : eqm d (mul d (wcov points ws S) Vi) one).
    { intros i j Hi Hj. unfold mul. rewrite (HVi i j Hi Hj). unfold one, unit_row. rewrite Nat.eqb_sym. reflexivity. }
    assert (B : eqm d (mul d (wcov points ws S) (scale (/ r) Ei)) one).
    { intros i j Hi Hj. unfold mul, scale. rewrite (sum_n_ext d _ (fun k => wcov points ws S i k / r * Ei k j)) by (intros; unfold Rdiv; ring).
      rewrite (HE i j Hi Hj). unfold one, unit_row. rewrite Nat.eqb_sym. reflexivity. }
    assert (C : eqm d (mul d Vi (wcov points ws S)) one) by (apply left_right_inverse; auto).
    pose proof (inverse_unique d _ _ _ C B) as U. intros i j Hi Hj. rewrite (U i j Hi Hj). unfold scale. field. auto.
  Qed.
End Noise.

Lemma root_power x n : 0 < x -> (0 < n)%nat -> exists r, root x n = Some r /\ 0 < r /\ r ^ n = x.
Proof.
  intros Hx Hn. unfold root, power. destruct (Rlt_dec x 0); [lra|]. destruct (Req_EM_T x 0); [lra|].
  exists (Rpower x (1 / INR n)). split; auto. split; [apply exp_pos|].
  rewrite <- Rpower_pow by apply exp_pos. rewrite Rpower_mult.
  replace (1 / INR n * INR n) with 1 by (field; apply not_0_INR; lia). apply Rpower_1; auto.
Qed.

Lemma ent_map_div m r i j : (i < length m)%nat -> (j < length (nth i m []))%nat ->
  ent (map (map (fun x => x / r)) m) i j = ent m i j / r.
Proof.
  intros Hi Hj. unfold ent. rewrite (nth_map_lt _ m i [] []) by auto. rewrite (nth_map_lt _ (nth i m []) j 0 0) by auto. reflexivity.
Qed.

Lemma noise_spec d inv points ws S mean cov : cloud d points ws -> inverts_all d inv ->
  length mean = d -> shape d d cov ->
  (forall j, (j < d)%nat -> nth j mean 0 = wmean points ws S j) ->
  (forall j k, (j < d)%nat -> (k < d)%nat -> ent cov j k = wcov points ws S j k) ->
  (det_n d (wcov points ws S) = 0 -> noise_of inv points mean cov = None) /\
  (det_n d (wcov points ws S) <> 0 -> exists r Vi noise,
     0 < r /\ r ^ d = det_n d (wcov points ws S) /\ inverse_fun d (wcov points ws S) Vi /\
     noise_of inv points mean cov = Some noise /\
     noise = map (fun p => r * distance d Vi (wmean points ws S) p) points).
Proof.
  intros Cl Inv Lm Sh M C. pose proof Cl as (Hd & Ne & Ln & _). pose proof (wcov_det d points ws Cl S) as Dp.
  assert (D : det cov = det_n d (wcov points ws S)).
  { unfold det. replace (length cov) with d by (symmetry; apply Sh). apply det_eqm. exact C. }
  unfold noise_of. rewrite Lm, D. split.
  - intros Z. rewrite Z. unfold root, power. destruct (Rlt_dec 0 0); auto. destruct (Req_EM_T 0 0); [|contradiction].
    destruct (Req_EM_T 0 0); [auto|contradiction].
  - intros Nz. destruct (root_power (det_n d (wcov points ws S)) d ltac:(lra) ltac:(lia)) as (r & -> & Pr & Er).
    destruct (Req_EM_T r 0); [lra|].
    pose proof Sh as [L1 L2]. assert (Row : forall i, (i < d)%nat -> length (nth i cov []) = d) by (intros; apply L2, nth_In; lia).
    assert (Es : forall i j, (i < d)%nat -> (j < d)%nat -> ent (map (map (fun x => x / r)) cov) i j = wcov points ws S i j / r).
    { intros i j Hi Hj. rewrite ent_map_div by (try rewrite Row; lia). rewrite C; auto. }
    assert (Sh' : shape d d (map (map (fun x => x / r)) cov)).
    { split; [rewrite map_length; auto|]. intros row Hr. apply in_map_iff in Hr. destruct Hr as (row' & <- & Hr). rewrite map_length. auto. }
    pose proof (Inv _ Sh') as I. destruct (inv (map (map (fun x => x / r)) cov)) as [ei|].
    2:{ exfalso. rewrite (det_eqm d _ (scale (/ r) (wcov points ws S))) in I.
        - rewrite det_scale in I. apply Rmult_integral in I. destruct I as [I|I]; [|lra].
          revert I. apply pow_nonzero. apply Rinv_neq_0_compat. lra.
        - intros i j Hi Hj. rewrite Es by auto. unfold scale, Rdiv. ring. }
    destruct I as (Se & o & Pro & Id).
    assert (HE : inverse_fun d (fun i j => wcov points ws S i j / r) (ent ei)).
    { intros i j Hi Hj. rewrite <- (Id i j Hi Hj). rewrite (Pro i j Hi Hj). apply sum_n_ext. intros k Hk. rewrite Es by auto. auto. }
    pose proof (Inv cov Sh) as I2. destruct (inv cov) as [vi|].
    2:{ exfalso. apply Nz. rewrite <- I2. apply det_eqm. intros i j Hi Hj. symmetry. auto. }
    destruct I2 as (_ & o2 & Pro2 & Id2).
    assert (HV : inverse_fun d (wcov points ws S) (ent vi)).
    { intros i j Hi Hj. rewrite <- (Id2 i j Hi Hj). rewrite (Pro2 i j Hi Hj). apply sum_n_ext. intros k Hk. rewrite C by auto. auto. }
    assert (F : forallb (fun p => Nat.eqb (length p) d) points = true).
    { apply forallb_forall. intros p Hp. apply Nat.eqb_eq. auto. }
    rewrite F. exists r, (ent vi). eexists. split; auto. split; auto. split; auto. split; [reflexivity|].
    apply map_ext_in. intros p Hp. cbv zeta. unfold distance. rewrite (sum_n_swap d d). rewrite <- sum_n_scale.
    apply sum_n_ext. intros j Hj. rewrite <- sum_n_scale, Rmult_comm, <- sum_n_scale. apply sum_n_ext. intros i Hi.
    rewrite (scaled_inverse d points ws S (ent vi) HV r (ent ei) ltac:(lra) HE i j Hi Hj), !M by auto. ring.
Qed.
