(** Property C72: nd_newton_raphson1 and nd_newton_raphson2. *)
From Coq Require Import Reals ZArith List Bool Lia Lra.
From Verif Require Import Num HitPyModel HitPySpec BunchModel PyLibModel CommonModel CommonSpec CommonProofs EllipseModel TransformModel
  TransformProofs FitModel NewtonModel NewtonSpec NewtonProofs.
Import ListNotations.
Open Scope R_scope.

(** C72.  For any function: the evaluations go in rounds of two calls, and at most
    max_iteration rounds are made.  The first call of a round is at a point and at its
    neighbours in each coordinate; the second is at the point where the function would be 0 if
    it had the slopes seen in the first.  The next round starts there. *)
Theorem C72_rounds : forall inv f n tol start deltas max_iteration calls r,
  (forall m minv, shape n n m -> inv m = Some minv -> inverse_of n m minv) ->
  List.length tol = n -> List.length start = n ->
  newton_raphson1 inv f tol start deltas max_iteration None = (calls, r) ->
  (List.length calls <= 2 * Z.to_nat max_iteration)%nat /\
  (forall k pts, nth_error calls (2 * k) = Some pts -> star n pts /\
     match k with O => hd [] pts = start | S k' => nth_error calls (2 * k' + 1) = Some [hd [] pts] end) /\
  (forall k q, nth_error calls (2 * k + 1) = Some q -> exists pts x',
     nth_error calls (2 * k) = Some pts /\ q = [x'] /\ List.length x' = n /\
     (forall i, (i < n)%nat -> arm pts i <> 0) /\
     forall j, (j < n)%nat ->
       sum_n n (fun i => slope f pts j i * (nth i x' 0 - nth i (hd [] pts) 0)) = - nth j (f (hd [] pts)) 0).
Proof.
  intros inv f n tol start deltas mi calls r Hi Ht Ls E. unfold newton_raphson1, newton_raphson2 in E.
  destruct (loop_spec inv f n Hi tol Ht None _ _ _ _ _ Ls E) as (A & B & C & _). split; [exact A|]. split.
  - intros k pts Q. split; [apply (B k pts Q)|]. destruct (loop_starts _ _ _ _ _ _ _ _ _ E k pts Q) as (x1 & W & M).
    cbn in W. injection W as <-. destruct k; exact M.
  - intros k q Q. destruct (C k q Q) as (pts & x' & Q1 & Q2 & (L & D & S) & _). exists pts, x'. repeat (split; [assumption|]).
    split; [|exact S]. intros i Hin Ez. specialize (D i Hin). rewrite Ez, Rabs_R0 in D. unfold float_tolerance in D. lra.
Qed.

(** C72.  The value returned has been evaluated: it is the first point of the last call. *)
Theorem C72_evaluated : forall inv f n tol start deltas max_iteration limits calls v,
  (forall m minv, shape n n m -> inv m = Some minv -> inverse_of n m minv) ->
  List.length tol = n -> List.length start = n -> (1 <= max_iteration)%Z ->
  newton_raphson1 inv f tol start deltas max_iteration limits = (calls, inr v) ->
  List.length v = n /\ exists front q, calls = front ++ [q] /\ hd [] q = v.
Proof.
  intros inv f n tol start deltas mi limits calls v Hi Ht Ls Hm E. unfold newton_raphson1, newton_raphson2 in E.
  assert (E' : newton_loop inv (map f) (Z.to_nat mi) limits tol start deltas = (calls, inr v)).
  { destruct limits as [[l u]|]; [destruct (_ && _)%bool; [exact E|discriminate]|exact E]. }
  destruct (loop_spec inv f n Hi tol Ht limits _ _ _ _ _ Ls E') as (_ & _ & _ & D). apply (D v eq_refl). lia.
Qed.

(** C72.  A round that starts within the tolerances is the last; a value found in fewer than
    max_iteration rounds is one step away from a point within the tolerances, unless the last
    round broke off before its step. *)
Theorem C72_tolerances : forall inv f n tol start deltas max_iteration calls r,
  (forall m minv, shape n n m -> inv m = Some minv -> inverse_of n m minv) ->
  List.length tol = n -> List.length start = n ->
  newton_raphson1 inv f tol start deltas max_iteration None = (calls, r) ->
  (forall k pts, nth_error calls (2 * k) = Some pts -> within_tolerance tol (f (hd [] pts)) ->
     (List.length calls <= 2 * k + 2)%nat) /\
  (forall v k, r = inr v -> List.length calls = (2 * k + 2)%nat -> (S k < Z.to_nat max_iteration)%nat ->
     exists pts, nth_error calls (2 * k) = Some pts /\ nth_error calls (2 * k + 1) = Some [v] /\
       within_tolerance tol (f (hd [] pts))).
Proof.
  intros inv f n tol start deltas mi calls r Hi Ht Ls E. unfold newton_raphson1, newton_raphson2 in E.
  destruct (loop_spec inv f n Hi tol Ht None _ _ _ _ _ Ls E) as (A & B & C & D). split.
  - intros k pts Q W. apply (B k pts Q), W.
  - intros v k -> L Hk. destruct (nth_error calls (2 * k + 1)) as [q|] eqn:Q.
    2: { apply nth_error_None in Q. lia. }
    destruct (C k q Q) as (pts & x' & Q1 & -> & _ & W). exists pts. split; [exact Q1|]. split.
    + destruct (D v eq_refl ltac:(lia)) as (_ & fr & q & Ec & Eh). subst calls. rewrite app_length in L. cbn in L.
      rewrite nth_error_app2 in Q by lia. replace (2 * k + 1 - List.length fr)%nat with 0%nat in Q by lia. cbn in Q. injection Q as ->.
      cbn in Eh. subst v. reflexivity.
    + apply W; [lia|lia|eauto].
Qed.

(** C72.  The root of an affine function with an invertible matrix is found exactly, from any
    starting point, with any tolerances, if no delta is below 1e-9. *)
Theorem C72_affine : forall inv f n A c tol start deltas max_iteration,
  (forall m minv, shape n n m -> inv m = Some minv -> inverse_of n m minv) ->
  (forall m, shape n n m -> (exists mi, inverse_of n m mi) -> inv m <> None) ->
  affine n A c f -> (exists mi, inverse_of n A mi) ->
  List.length tol = n -> List.length start = n -> List.length deltas = n ->
  (forall d, In d deltas -> 1 / 1000000000 <= Rabs d) -> (1 <= max_iteration)%Z ->
  exists calls v, newton_raphson1 inv f tol start deltas max_iteration None = (calls, inr v) /\
    List.length v = n /\ forall j, (j < n)%nat -> nth j (f v) 0 = 0.
Proof.
  intros inv f n A c tol start deltas mi Hi Hj Ha Hai Ht Ls Ld Hd Hm. unfold newton_raphson1, newton_raphson2.
  assert (Root : forall count x delta, List.length x = n -> List.length delta = n -> (forall j, (j < n)%nat -> nth j (f x) 0 = 0) ->
    exists calls v, newton_loop inv (map f) count None tol x delta = (calls, inr v) /\
      List.length v = n /\ forall j, (j < n)%nat -> nth j (f v) 0 = 0).
  { induction count as [|count IH]; intros x delta Lx Lx' Hr; [cbn; eauto|].
    destruct (affine_round inv f n Hi Hj tol Ht A c Ha Hai count x delta Lx Lx') as (pts & St & _ & [(E & _)|(x' & step & Sc & Lst & [E|E])]).
    - rewrite E. eauto.
    - rewrite E. exists [pts; [x']], x'. split; [reflexivity|]. split; [apply Sc|]. exact (affine_root f n tol Ht A c Ha pts x' St Sc).
    - rewrite E. destruct (IH x' step) as (calls & v & Ev & Q); [apply Sc|exact Lst|exact (affine_root f n tol Ht A c Ha pts x' St Sc)|].
      rewrite Ev. eexists. exists v. split; [reflexivity|exact Q]. }
  destruct (Z.to_nat mi) as [|count] eqn:Em; [lia|].
  destruct (affine_round inv f n Hi Hj tol Ht A c Ha Hai count start deltas Ls Ld) as (pts & St & _ & [(_ & i & Hin & T)|(x' & step & Sc & Lst & [E|E])]).
  - exfalso. assert (I : In (nth i deltas 0) deltas) by (apply nth_In; lia). specialize (Hd _ I). unfold float_tolerance in T. lra.
  - rewrite E. exists [pts; [x']], x'. split; [reflexivity|]. split; [apply Sc|]. exact (affine_root f n tol Ht A c Ha pts x' St Sc).
  - rewrite E. destruct (Root count x' step) as (calls & v & Ev & Q); [apply Sc|exact Lst|exact (affine_root f n tol Ht A c Ha pts x' St Sc)|].
    rewrite Ev. eexists. exists v. split; [reflexivity|exact Q].
Qed.

(** C72.  With limits from 0, the rounds start at points between the limits. *)
Theorem C72_limits : forall inv f tol start deltas max_iteration uppers calls r k pts,
  (forall u, In u uppers -> 0 < u) -> List.length uppers = List.length start ->
  newton_raphson2 inv f tol start deltas max_iteration (Some (repeat 0 (List.length uppers), uppers)) = (calls, r) ->
  nth_error calls (2 * k) = Some pts ->
  forall i, (i < List.length (hd [] pts))%nat -> 0 <= nth i (hd [] pts) 0 < nth i uppers 0.
Proof.
  intros inv f tol start deltas mi uppers calls r k pts Hu Lu E Q i Hi. unfold newton_raphson2 in E.
  rewrite repeat_length, Lu, Nat.leb_refl in E. cbn [andb] in E.
  rewrite <- Lu in E. destruct (loop_starts _ _ _ _ _ _ _ _ _ E k pts Q) as (x1 & W & _). cbn [wrapped] in W.
  apply (wrap_all_range uppers Hu x1 _ W). rewrite <- (wrap_all_length _ _ _ _ W). exact Hi.
Qed.

(** ---- refutations ------------------------------------------------------------------------ *)

Definition inv1 (m : Matrix) : option Matrix :=
  match m with [[a]] => if Req_EM_T a 0 then None else Some [[/ a]] | _ => None end.
Lemma inv1_ok : forall m minv, inv1 m = Some minv -> inverse_of 1 m minv.
Proof.
  intros m minv H. destruct m as [|[|a [|]] [|]]; try discriminate. cbn [inv1] in H.
  destruct (Req_EM_T a 0) as [|N]; [discriminate|]. injection H as <-.
  split; [split; auto; intros r [<-|[]]; auto|]. exists [[1]]. split; intros [|i] [|j] Hi Hj; try lia; unfold ent; cbn; [field; auto|lra].
Qed.
Lemma inv1_total : forall m, shape 1 1 m -> (exists mi, inverse_of 1 m mi) -> inv1 m <> None.
Proof.
  intros m [L Rm] (mi & _ & one & P & I). destruct m as [|r [|]]; try discriminate. specialize (Rm r (or_introl eq_refl)).
  destruct r as [|a [|]]; try discriminate. cbn [inv1]. destruct (Req_EM_T a 0) as [->|]; [|discriminate].
  specialize (P 0%nat 0%nat ltac:(lia) ltac:(lia)). specialize (I 0%nat 0%nat ltac:(lia) ltac:(lia)).
  rewrite I in P. unfold ent in P. cbn in P. lra.
Qed.

(** The values may be out of tolerance at the point returned, by any amount, although the
    search has ended because of the tolerances: y = 1/20 + x^2/1000, tolerance 1/10, from 0. *)
Theorem C72_tolerance_refuted : exists calls v,
  newton_raphson1 inv1 (fun x => [1 / 20 + nth 0 x 0 * nth 0 x 0 / 1000]) [1 / 10] [0] [1] 10 None = (calls, inr v) /\
  List.length calls = 2%nat /\ 1 / 20 + nth 0 v 0 * nth 0 v 0 / 1000 = 51 / 20.
Proof.
  unfold newton_raphson1, newton_raphson2. change (Z.to_nat 10) with (S 9). generalize 9%nat. intros k.
  cbn [newton_loop wrapped]. replace (x_points [0] [1]) with (Some [[0]; [0 + 1]]) by reflexivity. cbn [map nth List.length].
  unfold columns. cbn [nth_error seq map all_some option_map Nat.ltb Nat.leb].
  destruct (Rlt_dec (Rabs 1) float_tolerance) as [T|_]; [rewrite Rabs_R1 in T; unfold float_tolerance in T; lra|].
  unfold jacobian, matrix_of. cbn [seq map nth inv1].
  set (J := (1 / 20 + (0 + 1) * (0 + 1) / 1000 - (1 / 20 + 0 * 0 / 1000)) / 1).
  assert (EJ : J = 1 / 1000) by (unfold J; field). destruct (Req_EM_T J 0) as [Z|_]; [lra|]. cbn [Nat.eqb].
  unfold within. cbn [seq map nth_error all_some option_map].
  destruct (Rlt_dec (1 / 10) (Rabs (1 / 20 + 0 * 0 / 1000))) as [T|_].
  { rewrite Rabs_right in T by lra. lra. }
  cbn [all_some option_map forallb andb]. eexists. eexists. split; [reflexivity|]. split; [reflexivity|].
  cbn [vadd combine map fst snd nth dot]. rewrite EJ. field.
Qed.

(** A function that is constant and not 0 has no root; the starting point is returned. *)
Theorem C72_singular_refuted : forall inv n c start deltas max_iteration,
  (forall m minv, shape n n m -> inv m = Some minv -> inverse_of n m minv) ->
  (1 <= n)%nat -> List.length c = n -> List.length start = n -> List.length deltas = n ->
  (forall d, In d deltas -> 1 / 1000000000 <= Rabs d) -> (1 <= max_iteration)%Z ->
  exists call, newton_raphson1 inv (fun _ => c) (map Rabs c) start deltas max_iteration None = ([call], inr start).
Proof.
  intros inv n c start deltas mi Hi Hn Lc Ls Ld Hd Hm. unfold newton_raphson1, newton_raphson2.
  destruct (Z.to_nat mi) as [|count] eqn:Em; [lia|]. cbn [newton_loop wrapped].
  destruct (x_points_total start deltas) as [pts Ep]; [lia|]. rewrite Ep. exists pts.
  destruct (x_points_spec _ _ _ Ep) as ((L & _) & Hh & _). destruct pts as [|p ps]; [discriminate|]. cbn [map]. rewrite map_length, Lc, Ls.
  rewrite Ls in L. cbn in L. injection L as L.
  destruct (columns_total deltas c (map (fun _ => c) ps) n Lc n 0) as (o & Eo & Q); [lia|rewrite map_length; lia| |].
  { intros y I. apply in_map_iff in I. destruct I as (q & <- & _). exact Lc. }
  destruct Q as (cols & ->). { intros q Hq. unfold float_tolerance. apply Hd, nth_In. cbn. lia. }
  rewrite Eo. destruct (inv (jacobian n cols)) as [m|] eqn:E; [|reflexivity]. exfalso.
  destruct (columns_spec _ _ _ _ _ _ _ _ Eo) as [_ C]. destruct (matrix_of_ent n (fun j i => nth j (nth i cols []) 0)) as [Sq Ej].
  fold (jacobian n cols) in Sq, Ej. destruct (Hi _ _ Sq E) as (_ & one & P & I).
  specialize (P 0%nat 0%nat ltac:(lia) ltac:(lia)). rewrite (I 0%nat 0%nat ltac:(lia) ltac:(lia)) in P. cbn [Nat.eqb] in P.
  rewrite sum_n_zero in P; [lra|]. intros i Hin. rewrite (Ej 0%nat i ltac:(lia) Hin). destruct (C i Hin) as (d & _ & T & J).
  rewrite (J 0%nat ltac:(lia)). cbn [Nat.add]. rewrite (nth_indep (map (fun _ => c) ps) [] c) by (rewrite map_length; lia).
  assert (Ec : nth i (map (fun _ : list R => c) ps) c = c).
  { destruct (nth_in_or_default i (map (fun _ : list R => c) ps) c) as [Ii|Ed]; [|exact Ed]. apply in_map_iff in Ii. destruct Ii as (q & Eq & _). auto. }
  rewrite Ec. unfold Rdiv. ring.
Qed.

(** Limits that do not start from 0 do not hold: between 1 and 3, from 3/2, the first point
    is 7/2. *)
Theorem C72_limits_refuted : forall inv f tol,
  exists call rest r, newton_raphson2 inv f tol [3 / 2] [1] 1 (Some ([1], [3])) = (call :: rest, r) /\ hd [] call = [7 / 2].
Proof.
  intros inv f tol. unfold newton_raphson2. cbn [List.length Nat.leb andb]. change (Z.to_nat 1) with 1%nat. cbn [newton_loop wrapped wrap_all].
  destruct (Req_EM_T (3 - 1) 0); [lra|].
  assert (W : wrap 1 3 (3 / 2) = 7 / 2).
  { unfold wrap. assert (I : Int_part (3 / 2 / (3 - 1) - 1) = (-1)%Z).
    { unfold Int_part. rewrite <- (tech_up (3 / 2 / (3 - 1) - 1) 0); [reflexivity|lra|lra]. }
    rewrite I. lra. }
  rewrite W. destruct (x_points_total [7 / 2] [1] (le_n _)) as [pts Ep]. rewrite Ep. destruct (x_points_spec _ _ _ Ep) as (_ & Hh & _).
  destruct (f pts) as [|y0 ys]; [exists pts; do 2 eexists; split; [reflexivity|exact Hh]|].
  destruct (columns _ _ _ _ _ _ _) as [e|[cols|]]; try (exists pts; do 2 eexists; split; [reflexivity|exact Hh]).
  destruct (inv _) as [m|]; [|exists pts; do 2 eexists; split; [reflexivity|exact Hh]].
  destruct (Nat.eqb _ _); [|exists pts; do 2 eexists; split; [reflexivity|exact Hh]].
  destruct (within _ _ _) as [[]|]; exists pts; do 2 eexists; (split; [reflexivity|exact Hh]).
Qed.

(** ---- examples ------------------------------------------------------------------------------ *)

(** y = 2 x - 3: the hypotheses of C72_affine hold and the root is found. *)
Example C72_affine_case : exists calls v,
  newton_raphson1 inv1 (fun x => [2 * nth 0 x 0 - 3]) [1 / 10] [0] [1] 10 None = (calls, inr v) /\ nth 0 v 0 = 3 / 2.
Proof.
  destruct (C72_affine inv1 (fun x => [2 * nth 0 x 0 - 3]) 1 [[2]] [-3] [1 / 10] [0] [1] 10) as (calls & v & E & L & Z); auto; try lia.
  - intros m minv _. apply inv1_ok.
  - exact inv1_total.
  - intros x Lx. split; [reflexivity|]. intros [|j] Hj; [|lia]. unfold ent. cbn. ring.
  - exists [[/ 2]]. apply inv1_ok. cbn. destruct (Req_EM_T 2 0); [lra|reflexivity].
  - intros d [<-|[]]. rewrite Rabs_R1. lra.
  - exists calls, v. split; [exact E|]. specialize (Z 0%nat ltac:(lia)). cbn in Z. lra.
Qed.
(** The rounds of this search: two calls, the first at 0 and 1. *)
Example C72_rounds_case : exists v,
  newton_raphson1 inv1 (fun x => [2 * nth 0 x 0 - 3]) [4] [0] [1] 10 None = ([[[0]; [0 + 1]]; [v]], inr v).
Proof.
  unfold newton_raphson1, newton_raphson2. change (Z.to_nat 10) with (S 9). generalize 9%nat. intros k.
  cbn [newton_loop wrapped]. replace (x_points [0] [1]) with (Some [[0]; [0 + 1]]) by reflexivity. cbn [map nth List.length].
  unfold columns. cbn [nth_error seq map all_some option_map Nat.ltb Nat.leb].
  destruct (Rlt_dec (Rabs 1) float_tolerance) as [T|_]; [rewrite Rabs_R1 in T; unfold float_tolerance in T; lra|].
  unfold jacobian, matrix_of. cbn [seq map nth inv1].
  destruct (Req_EM_T _ 0) as [Z|_]; [lra|]. cbn [Nat.eqb]. unfold within. cbn [seq map nth_error all_some option_map].
  destruct (Rlt_dec 4 _) as [T|_]; [rewrite Rabs_left in T; lra|]. cbn [all_some option_map forallb andb]. eexists. reflexivity.
Qed.

Print Assumptions C72_rounds.
Print Assumptions C72_evaluated.
Print Assumptions C72_tolerances.
Print Assumptions C72_affine.
Print Assumptions C72_limits.
Print Assumptions C72_tolerance_refuted.
Print Assumptions C72_singular_refuted.
Print Assumptions C72_limits_refuted.
