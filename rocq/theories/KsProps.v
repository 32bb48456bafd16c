(** Property C104: the Kolmogorov-Smirnov test of two samples. *)
From Coq Require Import Reals ZArith Bool List Lia Lra Permutation Sorted.
From Flocq Require Import Core BinarySingleNaN.
From Verif Require Import FloatProps.
From Verif Require Import PyLibModel PyLibProofs FloatModel Bin64Model Bin64Spec Bin64Proofs KsModel.
Import ListNotations.
Open Scope R_scope.

(** A sample without infinities and NaN. *)
Notation sample := (Forall (fun x : b64 => finite x = true)).
(** The library looks at the values only, not at the signs of zeros. *)
Definition by_value (root : nat -> list b64 -> nat -> list b64 -> b64) : Prop :=
  forall n a a' m b b', map (fun x => value x) a = map (fun x => value x) a' -> map (fun x => value x) b = map (fun x => value x) b' ->
    root n a m b = root n a' m b'.

Lemma array_all l : c_array (length l) l = l.
Proof.
  unfold c_array. apply nth_ext with (d := fzero) (d' := fzero); [rewrite map_length, seq_length; reflexivity|].
  intros i Hi. rewrite map_length, seq_length in Hi. rewrite nth_indep with (d' := nth 0 l fzero) by (rewrite map_length, seq_length; exact Hi).
  rewrite (map_nth (fun i => nth i l fzero) (seq 0 (length l)) 0%nat i), seq_nth by exact Hi. reflexivity.
Qed.

Lemma ins_sorted (x : b64) l : sample (x :: l) -> StronglySorted Rle (map (fun x => value x) l) -> StronglySorted Rle (map (fun x => value x) (insert flt x l)).
Proof.
  intros F. inversion F as [|? ? Fx Fl]. subst. clear F. induction l as [|y l IH]; intros H; cbn [insert].
  - repeat constructor.
  - inversion Fl as [|? ? Fy Fl']. subst. cbn [map] in H. inversion H as [|? ? H1 H2]. subst.
    rewrite flt_finite by assumption. unfold rlt. destruct (Rlt_dec (value y) (value x)) as [L|L].
    + cbn [map]. constructor; [apply IH; assumption|]. rewrite Forall_forall in *. intros r Hr. apply in_map_iff in Hr. destruct Hr as (z & <- & Hz).
      apply (Permutation_in _ (insert_perm flt x l)) in Hz. destruct Hz as [<- |Hz]; [lra|]. apply H2, (in_map (fun x => value x)), Hz.
    + cbn [map]. constructor; [constructor; assumption|]. constructor; [lra|]. rewrite Forall_forall in *. intros r Hr. specialize (H2 r Hr). lra.
Qed.
Lemma sort_values l : sample l -> StronglySorted Rle (map (fun x => value x) (sort flt l)).
Proof.
  induction 1 as [|x l Fx Fl IH]; cbn [sort]; [constructor|]. apply ins_sorted; [|exact IH]. constructor; [exact Fx|].
  rewrite Forall_forall in *. intros z Hz. apply Fl. apply (Permutation_in _ (sort_perm flt l)), Hz.
Qed.
Lemma ascending_unique l1 : forall l2, StronglySorted Rle l1 -> StronglySorted Rle l2 -> Permutation l1 l2 -> l1 = l2.
Proof.
  induction l1 as [|a l1 IH]; intros l2 H1 H2 P.
  - apply Permutation_nil in P. auto.
  - destruct l2 as [|b l2]; [apply Permutation_sym, Permutation_nil in P; discriminate|].
    inversion H1 as [|? ? S1 F1]. inversion H2 as [|? ? S2 F2]. subst. rewrite Forall_forall in *.
    assert (a = b).
    { assert (Hb : In b (a :: l1)) by (eapply Permutation_in; [apply Permutation_sym, P|left; reflexivity]).
      assert (Ha : In a (b :: l2)) by (eapply Permutation_in; [apply P|left; reflexivity]).
      destruct Ha as [E|Ha]; [auto|]. destruct Hb as [E|Hb]; [auto|]. apply Rle_antisym; auto. }
    subst. f_equal. apply IH; auto. eapply Permutation_cons_inv; eauto.
Qed.

(** ---------------------------------------------------------------- C104 *)

(** C104.  ROOT gets each sample complete, in ascending order, as it must be, with its length. *)
Theorem C104_arrays :
  forall root (s1 s2 : list b64), sample s1 -> sample s2 ->
    exists a1 a2, ks_test root s1 s2 = root (length s1) a1 (length s2) a2 /\
      Permutation a1 s1 /\ Permutation a2 s2 /\
      StronglySorted Rle (map (fun x => value x) a1) /\ StronglySorted Rle (map (fun x => value x) a2).
Proof.
  intros root s1 s2 F1 F2. exists (sort flt s1), (sort flt s2). split; [unfold ks_test; rewrite !array_all, !sort_length; reflexivity|].
  split; [apply sort_perm|]. split; [apply sort_perm|]. split; apply sort_values; assumption.
Qed.
Print Assumptions C104_arrays.

(** C104.  The result does not depend on the order in which the samples were taken. *)
Theorem C104_order :
  forall root (s1 s1' s2 s2' : list b64), by_value root -> sample s1 -> sample s2 -> Permutation s1 s1' -> Permutation s2 s2' ->
    ks_test root s1 s2 = ks_test root s1' s2'.
Proof.
  intros root s1 s1' s2 s2' R F1 F2 P1 P2.
  assert (Q : forall s s', sample s -> Permutation s s' -> map (fun x => value x) (sort flt s) = map (fun x => value x) (sort flt s')).
  { intros s s' F P. apply ascending_unique; [apply sort_values, F|apply sort_values|].
    - rewrite Forall_forall in *. intros x Hx. apply F. apply (Permutation_in _ (Permutation_sym P)), Hx.
    - apply Permutation_map. rewrite !sort_perm. exact P. }
  unfold ks_test. rewrite !array_all.
  replace (length (sort flt s1)) with (length (sort flt s1')) by (apply Permutation_length; rewrite !sort_perm; symmetry; exact P1).
  replace (length (sort flt s2)) with (length (sort flt s2')) by (apply Permutation_length; rewrite !sort_perm; symmetry; exact P2).
  apply R; apply Q; assumption.
Qed.
Print Assumptions C104_order.

Lemma two_val : finite (b64_of_Z 2) = true /\ value (b64_of_Z 2) = 2.
Proof. split; [apply fin_SF; vm_compute; reflexivity|b64_val; lra]. Qed.
Lemma one_fin : finite (b64_of_Z 1) = true.
Proof. apply fin_SF; vm_compute; reflexivity. Qed.

Example C104_arrays_ex : forall root, exists a1 a2,
  ks_test root [b64_of_Z 2; b64_of_Z 1; b64_of_Z 2] [b64_of_Z 1] = root 3%nat a1 1%nat a2 /\ Permutation a1 [b64_of_Z 2; b64_of_Z 1; b64_of_Z 2] /\
  StronglySorted Rle (map (fun x => value x) a1).
Proof.
  intros root. destruct (C104_arrays root [b64_of_Z 2; b64_of_Z 1; b64_of_Z 2] [b64_of_Z 1]) as (a1 & a2 & E & P & _ & S & _).
  - repeat (constructor; [first [exact (proj1 two_val)|exact one_fin]|]); constructor.
  - constructor; [exact one_fin|constructor].
  - exists a1, a2. split; [exact E|]. split; [exact P|exact S].
Qed.
Example C104_order_ex : forall root, by_value root ->
  ks_test root [b64_of_Z 2; b64_of_Z 1] [b64_of_Z 1] = ks_test root [b64_of_Z 1; b64_of_Z 2] [b64_of_Z 1].
Proof.
  intros root R. apply C104_order; [exact R| | |apply perm_swap|apply Permutation_refl].
  - repeat (constructor; [first [exact (proj1 two_val)|exact one_fin]|]); constructor.
  - constructor; [exact one_fin|constructor].
Qed.

(** C104, refuted: with NaN in a sample the order matters, because NaN compares false with everything and the sort leaves
    it where it is. *)
Theorem C104_nan_refuted :
  ~ (forall root (s1 s1' s2 s2' : list b64), by_value root -> Permutation s1 s1' -> Permutation s2 s2' ->
       ks_test root s1 s2 = ks_test root s1' s2').
Proof.
  intros H.
  specialize (H (fun _ a _ _ => if Req_EM_T (value (last a fzero)) 2 then fone else fzero)
    [b64_of_Z 2; B754_nan] [B754_nan; b64_of_Z 2] [] []).
  assert (E : forall r (a a' : list b64), map (fun x => value x) a = map (fun x => value x) a' ->
    (if Req_EM_T (value (last a fzero)) r then fone else fzero) = (if Req_EM_T (value (last a' fzero)) r then fone else fzero)).
  { intros r a a' Q. assert (L : forall l : list b64, value (last l fzero) = last (map (fun x => value x) l) 0).
    { induction l as [|x [|y l] IH]; [reflexivity|reflexivity|exact IH]. }
    rewrite !L, Q. reflexivity. }
  specialize (H (fun n a a' m b b' Qa Qb => E 2 a a' Qa) (perm_swap _ _ _) (Permutation_refl _)).
  assert (S1 : sort flt [b64_of_Z 2; B754_nan] = [b64_of_Z 2; B754_nan]) by reflexivity.
  assert (S2 : sort flt [B754_nan; b64_of_Z 2] = [B754_nan; b64_of_Z 2]) by reflexivity.
  unfold ks_test in H. rewrite !array_all, S1, S2 in H. cbn [last] in H. rewrite (proj2 two_val) in H.
  change (value (B754_nan : b64)) with 0 in H. destruct (Req_EM_T 0 2) as [Q|_]; [lra|]. destruct (Req_EM_T 2 2) as [_|Q]; [|lra].
  assert (V : value fone = value fzero) by (rewrite H; reflexivity). change (value fzero) with 0 in V.
  assert (value fone = 1) by (b64_val; lra). lra.
Qed.
Print Assumptions C104_nan_refuted.
