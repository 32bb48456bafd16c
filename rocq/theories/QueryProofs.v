(** Proofs for the queries of bunches. *)
From Coq Require Import Reals ZArith Lia Lra String List Bool Permutation Sorted.
From Verif Require Import Num WeightModel HitcoreModel HitcoreSpec PyLibModel PyLibProofs BunchModel BunchSpec HitPyModel
  MomentModel MomentSpec MomentProofs BunchNumModel HitPySpec CommonModel CommonSpec CommonProofs EllipseModel EllipseSpec TwissProofs TableModel QueryModel.
Import ListNotations.
Open Scope list_scope.

Lemma all_inr_iff {A} (l : list (MErr + A)) xs : all_inr l = inr xs <-> l = map inr xs.
Proof.
  revert xs. induction l as [|[e|x] l IH]; intros xs; cbn [all_inr].
  - split; [intros E; injection E as <-; reflexivity | destruct xs; [reflexivity|discriminate]].
  - split; [discriminate | destruct xs; discriminate].
  - destruct (all_inr l) as [e|y] eqn:E.
    + split; [discriminate|]. destruct xs as [|z xs]; [discriminate|]. intros X. injection X as <- X. apply IH in X. discriminate.
    + split.
      * intros X. injection X as <-. cbn [map]. f_equal. apply IH. reflexivity.
      * destruct xs as [|z xs]; [discriminate|]. intros X. injection X as <- X. apply IH in X. injection X as ->. reflexivity.
Qed.
Lemma all_inr_map {A B} (f : A -> MErr + B) g l : (forall x, In x l -> f x = inr (g x)) -> all_inr (map f l) = inr (map g l).
Proof.
  intros H. apply all_inr_iff. rewrite map_map. apply map_ext_in. auto.
Qed.
Lemma all_inr_forall2 {A B} (f : A -> MErr + B) l xs : all_inr (map f l) = inr xs -> Forall2 (fun a x => f a = inr x) l xs.
Proof.
  intros E. apply all_inr_iff in E. revert xs E. induction l as [|a l IH]; intros [|x xs] E; try discriminate; constructor.
  - injection E; auto.
  - apply IH. injection E; auto.
Qed.

Lemma forall2_weaken {A B} (P Q : A -> B -> Prop) l m : (forall a b, P a b -> Q a b) -> Forall2 P l m -> Forall2 Q l m.
Proof. induction 2; constructor; auto. Qed.

(** ---- multisort of computed columns ---- *)
Section Sort.
  Context {A I : Type} (ltb : A -> A -> bool) (f : nat -> I -> A) (m : nat).

  Lemma all_opt_some_map {B} (l : list B) : all_opt (map Some l) = Some l.
  Proof. induction l as [|x l IH]; cbn [map all_opt]; [reflexivity|]. rewrite IH. reflexivity. Qed.

  Definition item_row (it : I) : list A := map (fun i => f i it) (seq 0 m).

  Lemma rows_items items : rows_of (map (fun i => map (f i) items) (seq 0 m)) (length items) = Some (map item_row items).
  Proof.
    unfold rows_of. replace (map _ (seq 0 (length items))) with (map Some (map item_row items)); [apply all_opt_some_map|].
    assert (G : forall pre, map Some (map item_row items) =
      map (fun i => all_opt (map (fun c => nth_error c i) (map (fun i => map (f i) (pre ++ items)) (seq 0 m)))) (seq (length pre) (length items))).
    { induction items as [|it items IH]; intros pre; [reflexivity|]. cbn [map length seq]. f_equal.
      - symmetry. rewrite map_map. replace (map _ (seq 0 m)) with (map Some (item_row it)); [apply all_opt_some_map|].
        unfold item_row. rewrite map_map. apply map_ext. intros i. rewrite map_app. cbn [map].
        rewrite nth_error_app2 by (rewrite map_length; auto). rewrite map_length, Nat.sub_diag. reflexivity.
      - rewrite (IH (pre ++ [it])). rewrite app_length. cbn [length]. rewrite Nat.add_1_r.
        replace ((pre ++ [it]) ++ items) with (pre ++ it :: items) by (rewrite <- app_assoc; reflexivity). reflexivity. }
    apply (G []).
  Qed.
  Lemma sort_map {B C} (lt1 : B -> B -> bool) (lt2 : C -> C -> bool) (g : C -> B) l :
    (forall a b, lt1 (g a) (g b) = lt2 a b) -> sort lt1 (map g l) = map g (sort lt2 l).
  Proof.
    intros H. induction l as [|x l IH]; cbn [map sort]; [reflexivity|]. rewrite IH. generalize (sort lt2 l). intros s.
    induction s as [|y s IHs]; cbn [map insert]; [reflexivity|]. rewrite H. destruct (lt2 y x); cbn [map]; congruence.
  Qed.
  Lemma column_items items i (old : list A) : (i < m)%nat -> length old = length items -> column (map item_row items) i old = map (f i) items.
  Proof.
    intros Hi. revert old. induction items as [|it items IH]; intros [|x old] L; try discriminate; [reflexivity|].
    cbn [map column]. f_equal; [|apply IH; injection L; auto]. unfold item_row.
    rewrite (nth_indep _ x (f 0 it)) by (rewrite map_length, seq_length; auto). rewrite (map_nth (fun i => f i it)), seq_nth; auto.
  Qed.
  Lemma multisort_items items : (0 < m)%nat ->
    multisort ltb (map (fun i => map (f i) items) (seq 0 m)) =
    inr (map (fun i => map (f i) (sort (fun a b => ltb (f 0%nat a) (f 0%nat b)) items)) (seq 0 m)).
  Proof.
    intros Hm. unfold multisort.
    assert (E : exists r, map (fun i => map (f i) items) (seq 0 m) = map (f 0%nat) items :: r).
    { destruct m as [|k]; [lia|]. cbn [seq map]. eauto. }
    destruct E as (r & E). pose proof (rows_items items) as R. rewrite E in R |- *. rewrite map_length, R. rewrite <- E.
    f_equal. rewrite (sort_map (row_ltb ltb) (fun a b => ltb (f 0%nat a) (f 0%nat b)) item_row).
    2: { intros a b. unfold item_row. destruct m as [|k]; [lia|]. reflexivity. }
    unfold write_back. rewrite map_length, seq_length.
    replace (combine (seq 0 m) (map (fun i => map (f i) items) (seq 0 m))) with (map (fun i => (i, map (f i) items)) (seq 0 m)).
    2: { generalize (seq 0 m). intros l. induction l as [|x l IH]; cbn [map combine]; congruence. }
    rewrite map_map. apply map_ext_in. intros i Hi. apply in_seq in Hi. cbn [fst snd]. apply column_items; [lia|].
    rewrite map_length, sort_length. reflexivity.
  Qed.
End Sort.

Open Scope R_scope.
Lemma rltb_weak : weak_order rltb.
Proof.
  unfold rltb. constructor; intros; repeat destruct (Rlt_dec _ _); auto; try lra; discriminate.
Qed.
Lemma unit_positive u q : assoc units u = Some q -> 0 < q.
Proof.
  unfold units. cbn [assoc]. intros E.
  repeat match type of E with (if ?c then _ else _) = _ => destruct c; [injection E as <-; try lra|] end.
  discriminate.
Qed.

(** ---- hit variables ---- *)
Section Hits.
  Variable extra : RWorld -> list nat -> string -> nat -> option RVal.
  Variable flag : bool.
  Variable inv : Matrix -> option Matrix.

  Lemma split_nonempty s word : split_spaces s word <> [].
  Proof. revert word. induction s as [|c s IH]; intros word; cbn [split_spaces]; [discriminate|]. destruct (Ascii.eqb c _); [discriminate|apply IH]. Qed.
  Lemma amplitude_nonempty name axes : amplitude_axes name = Some (Some axes) -> axes <> [].
  Proof.
    unfold amplitude_axes. destruct (String.index 0 "amplitude" name); [|discriminate]. intros E. injection E as E.
    unfold check_axis_list in E. destruct (forallb _ _); [|discriminate]. injection E as <-. apply split_nonempty.
  Qed.
  Lemma mean_loop_nonempty fx (w : RWorld) b vars acc d : mean_loop extra fx w b vars acc = inr d -> (acc <> [] \/ vars <> []) -> d <> [].
  Proof.
    revert acc. induction vars as [|v vars IH]; intros acc E H; cbn [mean_loop] in E.
    - injection E as <-. tauto.
    - assert (Q : forall x : RVal, acc ++ [(v, x)] <> []) by (intros x Z; destruct acc; discriminate).
      destruct (assoc acc v) eqn:A.
      + eapply IH; eauto. left. intros ->. discriminate.
      + destruct (assoc (f_means fx) v) as [mv|].
        * eapply IH; eauto.
        * destruct (moment_about extra fx w b [v] _) as [|x]; [discriminate|]. eapply IH; eauto.
  Qed.
  (** The matrix and the means computed in advance change nothing. *)
  Lemma amplitude_given (w : RWorld) b axes vars c d l : axes <> [] -> covariance_list axes flag = Some vars ->
    covariance_matrix extra no_fixed w b vars [] = inr c -> mean extra no_fixed w b vars = inr d ->
    get_amplitude extra flag inv no_fixed w b l axes (Some c) d None = get_amplitude extra flag inv no_fixed w b l axes None [] None.
  Proof.
    intros A V C D. unfold get_amplitude. unfold choose. rewrite V.
    unfold mean_picker. cbn [f_means no_fixed bindE]. rewrite D.
    assert (Nd : d <> []).
    { eapply mean_loop_nonempty; [exact D|]. right. destruct axes as [|a axes]; [congruence|]. cbn [covariance_list] in V.
      destruct (momentum_variable a flag), (covariance_list axes flag); try discriminate. injection V as <-. discriminate. }
    destruct d as [|d0 d]; [congruence|]. cbn [bindE].
    destruct (hit_vector extra w b l vars (d0 :: d)) as [e|v]; cbn [bindE]; auto.
    unfold pick_cov, cov_picker. cbn [f_covs no_fixed bindE]. rewrite C. reflexivity.
  Qed.
  Lemma column_agrees (w : RWorld) b name col : column_of extra flag inv no_fixed w b name None = inr col ->
    Forall2 (fun l x => hit_variable extra flag inv no_fixed w b name None [] l = inr x) (b_hits b) col.
  Proof.
    unfold column_of. intros E.
    destruct (match amplitude_axes name with None => inr (None, []) | Some None => inl MKeyError | Some (Some axes) => _ end) as [e|[c d]] eqn:P; [discriminate|].
    cbn [bindE fst snd] in E. apply all_inr_forall2 in E. revert E. apply forall2_weaken. intros l x E.
    assert (H : hit_variable extra flag inv no_fixed w b name c d l = inr x).
    { destruct (hit_variable extra flag inv no_fixed w b name c d l) as [|y]; [discriminate|]. exact E. }
    rewrite <- H. unfold hit_variable. destruct (amplitude_axes name) as [[axes|]|] eqn:A; auto.
    pose proof (amplitude_nonempty _ _ A) as Na. destruct (covariance_list axes flag) as [vars|] eqn:V; [|discriminate].
    destruct (covariance_matrix extra no_fixed w b vars []) as [|c'] eqn:C; [discriminate|]. cbn [bindE] in P.
    destruct (mean extra no_fixed w b vars) as [|d'] eqn:D; [discriminate|]. cbn [bindE] in P. injection P as <- <-.
    symmetry. eapply amplitude_given; eauto.
  Qed.
End Hits.
