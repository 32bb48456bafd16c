(** Properties C15 - C20: bunches as containers, splitting, cutting, transmission. *)
From Coq Require Import Reals ZArith QArith List Bool String Permutation Sorted Lia Lra.
From Verif Require Import Num WeightModel HitcoreModel HitcoreSpec HitcoreProofs
  PyLibModel PyLibProofs BunchModel BunchSpec BunchProofs.
Import ListNotations.
Open Scope string_scope.
Open Scope list_scope.
Open Scope nat_scope.

Local Ltac hit := eapply (is_hit_of_get _ _ _ "spill"); vm_compute; reflexivity.

(** ---------------------------------------------------------------- C15 *)

(** C15.  After any sequence of append, assignment at a non negative index and
    conditional_remove (with any comparator, any variables, successful or raising), the
    statistics core holds exactly the hits of the bunch in order. *)
Theorem C15_core_in_step :
  forall (N : NumOps) extra cmp scale (p : list (BOp N)),
    Forall plain_op p -> in_step (brun extra cmp scale p).
Proof. intros. apply brun_step. assumption. Qed.
Print Assumptions C15_core_in_step.

(** C15.  append puts the hit last in both lists. *)
Theorem C15_append :
  forall (b : Bunch) (l : nat), in_step b ->
    b_hits (append b l) = b_hits b ++ [l] /\
    b_core (append b l) = b_core b ++ [Some l].
Proof.
  intros b l H. pose proof (append_step b l H) as H'. unfold in_step in *.
  split; [reflexivity|]. rewrite H', H. simpl. rewrite map_app. reflexivity.
Qed.
Print Assumptions C15_append.

(** C15.  Assignment at index i, 0 <= i < len: item i becomes l in both lists, all other
    items and the length are unchanged. *)
Theorem C15_setitem :
  forall (b : Bunch) (i l : nat), in_step b -> i < List.length (b_hits b) ->
    let (b', ok) := setitem b (Z.of_nat i) l in
    ok = true /\ in_step b' /\
    List.length (b_hits b') = List.length (b_hits b) /\
    nth_error (b_hits b') i = Some l /\
    forall j, j <> i -> nth_error (b_hits b') j = nth_error (b_hits b) j.
Proof.
  intros b i l H Hi. pose proof (setitem_step b (Z.of_nat i) l ltac:(lia) H) as S.
  unfold setitem in *.
  destruct (list_index (List.length (b_hits b)) (Z.of_nat i)) as [k|] eqn:E.
  - destruct (list_index_nonneg _ _ _ (Zle_0_nat i) E) as [E1 E2].
    rewrite Nat2Z.id in E1. subst k. simpl in *.
    split; auto. split; auto. rewrite set_nth_length.
    split; auto. split; [apply nth_set_nth_same; auto|].
    intros j Hj. apply nth_set_nth_other; auto.
  - unfold list_index in E.
    destruct (Z.leb_spec 0 (Z.of_nat i)); [|lia].
    destruct (Z.ltb_spec (Z.of_nat i) (Z.of_nat (List.length (b_hits b)))); [|lia]. discriminate.
Qed.
Print Assumptions C15_setitem.

(** C15.  An index out of range raises and changes neither list. *)
Theorem C15_out_of_range_unchanged :
  forall (b : Bunch) (i : Z) (l : nat),
    (i < - Z.of_nat (List.length (b_hits b)) \/ Z.of_nat (List.length (b_hits b)) <= i)%Z ->
    setitem b i l = (b, false) /\ delitem b i = (b, false).
Proof.
  intros b i l H. unfold setitem, delitem.
  destruct (list_index_range (List.length (b_hits b)) i) as [_ R].
  destruct (list_index (List.length (b_hits b)) i); auto.
  assert (- Z.of_nat (List.length (b_hits b)) <= i < Z.of_nat (List.length (b_hits b)))%Z by (apply R; discriminate).
  lia.
Qed.
Print Assumptions C15_out_of_range_unchanged.

(** C15.  del bunch[i] with a valid index always raises; the hit has then left the list
    but not the statistics core, so the two disagree. *)
Theorem C15_del_effect :
  forall (b : Bunch) (i : Z), in_step b ->
    (- Z.of_nat (List.length (b_hits b)) <= i < Z.of_nat (List.length (b_hits b)))%Z ->
    let (b', ok) := delitem b i in
    ok = false /\ S (List.length (b_hits b')) = List.length (b_hits b) /\
    b_core b' = b_core b /\ ~ in_step b'.
Proof.
  intros b i H Hi. unfold delitem.
  destruct (list_index (List.length (b_hits b)) i) as [k|] eqn:E.
  - simpl. assert (Hk : k < List.length (b_hits b)).
    { unfold list_index in E.
      destruct (Z.leb_spec 0 i), (Z.ltb_spec i (Z.of_nat (List.length (b_hits b)))),
        (Z.ltb_spec i 0), (Z.leb_spec (- Z.of_nat (List.length (b_hits b))) i); simpl in E;
        inversion E; subst; lia. }
    pose proof (remove_nth_length (b_hits b) k Hk) as L.
    split; auto. split; [lia|]. split; auto.
    unfold in_step in *. simpl. intros C. apply (f_equal (@List.length _)) in C.
    rewrite H, !map_length in C. lia.
  - apply (proj1 (list_index_range (List.length (b_hits b)) i)) in Hi. contradiction.
Qed.
Print Assumptions C15_del_effect.

(** C15.  "The statistics follow the list of hits under del" is refuted. *)
Theorem C15_del_in_step_refuted :
  exists p : list (BOp ZNum),
    ~ in_step (brun (fun _ _ _ _ => None) (fun _ _ => CBool false) no_scale p) /\
    in_step (brun (fun _ _ _ _ => None) (fun _ _ => CBool false) no_scale (removelast p)).
Proof.
  exists [BAppend 0; BAppend 1; BDel 0%Z]. split.
  - vm_compute. discriminate.
  - vm_compute. reflexivity.
Qed.
Print Assumptions C15_del_in_step_refuted.

(** Three hits, one replaced, one removed because its x is above 3. *)
Definition ex_hits : list (WOp ZNum) :=
  [ WNew; WNew; WNew; WNew;
    WSet 0 "x" (@PFloat ZNum 1%Z); WSet 1 "x" (@PFloat ZNum 5%Z); WSet 2 "x" (@PFloat ZNum 2%Z);
    WSet 3 "x" (@PFloat ZNum 3%Z);
    WSet 0 "particle_number" (PInt 1%Z); WSet 1 "particle_number" (PInt 2%Z);
    WSet 2 "particle_number" (PInt 3%Z); WSet 3 "particle_number" (PInt 2%Z) ].

(** operator.gt *)
Definition gt_cmp (v : PyVal ZNum) (c : Z) : CmpRes := CBool (Z.ltb c (@num_of ZNum v)).

Definition no_extra {N : NumOps} : World N -> list nat -> string -> nat -> option (PyVal N) :=
  fun _ _ _ _ => None.

Example C15_case :
  let p := [BAppend 0; BAppend 1; BAppend 2; BSet 2%Z 3;
            BRemove (wrun ex_hits) [("x", 3%Z : ZNum)]] in
  Forall plain_op p /\
  b_hits (brun no_extra gt_cmp no_scale p) = [0; 3].
Proof.
  split; [repeat constructor; simpl; lia|]. vm_compute. reflexivity.
Qed.

(** ---------------------------------------------------------------- C16 *)

(** C16.  bunch[i] = hit with -n <= i < 0: the list stores the hit at n + i, the
    statistics core at -i - 1. *)
Theorem C16_negative_index_exact :
  forall (b : Bunch) (i : Z) (l : nat), in_step b ->
    (- Z.of_nat (List.length (b_hits b)) <= i < 0)%Z ->
    let (b', ok) := setitem b i l in
    ok = true /\
    List.length (b_hits b') = List.length (b_hits b) /\
    List.length (b_core b') = List.length (b_hits b) /\
    (forall j, nth_error (b_hits b') j =
       if Z.eqb (Z.of_nat j) (Z.of_nat (List.length (b_hits b)) + i) then Some l
       else nth_error (b_hits b) j) /\
    (forall j, nth_error (b_core b') j =
       if Z.eqb (Z.of_nat j) (- i - 1) then Some (Some l)
       else nth_error (map Some (b_hits b)) j).
Proof.
  intros b i l H Hi. unfold setitem. rewrite (list_index_neg _ _ Hi). simpl.
  set (n := List.length (b_hits b)) in *.
  assert (Hc : core_index i < List.length (b_core b)).
  { rewrite H, map_length. unfold core_index. destruct (Z.ltb_spec i 0); lia. }
  split; auto. rewrite core_set_in by auto. rewrite !set_nth_length.
  split; auto. rewrite H, map_length. split; auto. split; intros j.
  - destruct (Z.eqb_spec (Z.of_nat j) (Z.of_nat n + i)) as [E|E].
    + replace j with (Z.to_nat (Z.of_nat n + i)) by lia. apply nth_set_nth_same. fold n. lia.
    + apply nth_set_nth_other. lia.
  - assert (Ec : core_index i = Z.to_nat (- i - 1)).
    { unfold core_index. destruct (Z.ltb_spec i 0); lia. }
    rewrite Ec in *. rewrite H, map_length in Hc.
    destruct (Z.eqb_spec (Z.of_nat j) (- i - 1)) as [E|E].
    + replace j with (Z.to_nat (- i - 1)) by lia. apply nth_set_nth_same. rewrite map_length. auto.
    + apply nth_set_nth_other. lia.
Qed.
Print Assumptions C16_negative_index_exact.

(** C16.  Hence the bunch stays in step exactly when the index denotes the middle item,
    for a hit that was not already in the bunch. *)
Theorem C16_negative_index_in_step_iff :
  forall (b : Bunch) (i : Z) (l : nat), in_step b -> ~ In l (b_hits b) ->
    (- Z.of_nat (List.length (b_hits b)) <= i < 0)%Z ->
    (in_step (fst (setitem b i l)) <-> (2 * i + 1 = - Z.of_nat (List.length (b_hits b)))%Z).
Proof.
  intros b i l H Hl Hi. pose proof (C16_negative_index_exact b i l H Hi) as Q.
  destruct (setitem b i l) as [b' ok]. cbn [fst]. destruct Q as (_ & Q2 & Q3 & Q4 & Q5).
  unfold in_step. split.
  - intros E. destruct (Z.eq_dec (Z.of_nat (List.length (b_hits b)) + i) (- i - 1)) as [D|D]; [lia|].
    exfalso. set (j := Z.to_nat (- i - 1)).
    pose proof (Q5 j) as A. pose proof (Q4 j) as B.
    rewrite (proj2 (Z.eqb_eq (Z.of_nat j) (- i - 1))) in A by lia.
    rewrite (proj2 (Z.eqb_neq (Z.of_nat j) _)) in B by lia.
    rewrite E in A. assert (E2 : nth_error (b_hits b') j = Some l).
    { revert A. rewrite nth_error_map. destruct (nth_error (b_hits b') j); simpl; congruence. }
    rewrite E2 in B. symmetry in B. apply nth_error_In in B. contradiction.
  - intros E. apply list_ext. intros j. rewrite Q5, !nth_error_map, Q4.
    replace (Z.of_nat (List.length (b_hits b)) + i)%Z with (- i - 1)%Z by lia.
    destruct (Z.eqb (Z.of_nat j) (- i - 1)); reflexivity.
Qed.
Print Assumptions C16_negative_index_in_step_iff.

(** C16.  bunch[-1] = hit puts the hit last in the list but first in the statistics. *)
Theorem C16_negative_index_refuted :
  exists (b : Bunch) (i : Z) (l : nat), in_step b /\
    (- Z.of_nat (List.length (b_hits b)) <= i < 0)%Z /\
    ~ in_step (fst (setitem b i l)).
Proof.
  exists (append (append bunch_new 0) 1), (-1)%Z, 7.
  split; [reflexivity|]. split; [simpl; lia|]. vm_compute. discriminate.
Qed.
Print Assumptions C16_negative_index_refuted.

Example C16_case :
  let b := append (append (append bunch_new 0) 1) 2 in
  in_step b /\ ~ In 9 (b_hits b) /\
  fst (setitem b (-2)%Z 9) = mkBunch [0; 9; 2] [Some 0; Some 9; Some 2] /\
  fst (setitem b (-1)%Z 9) = mkBunch [0; 1; 9] [Some 9; Some 1; Some 2].
Proof. vm_compute. intuition discriminate. Qed.

(** ---------------------------------------------------------------- C17 *)

(** C17.  If the variable can be read on every hit, split succeeds; the keys are
    distinct; the bunch of key k holds exactly the hits with int(value) = k, in the order
    of the original bunch, is not empty and has its statistics in step; every hit is in
    exactly one of the bunches. *)
Theorem C17_split_partition :
  forall (N : NumOps) extra (int_of : PyVal N -> Z) (w : World N) (b : Bunch) (name : string)
         (val : nat -> PyVal N),
    (forall l, In l (b_hits b) -> get_hit_variable extra w (b_hits b) name l = Some (val l)) ->
    exists d, split extra int_of w b name = Some d /\
      NoDup (map fst d) /\
      (forall k b', In (k, b') d ->
         b_hits b' = filter (fun l => Z.eqb (int_of (val l)) k) (b_hits b) /\
         in_step b' /\ b_hits b' <> []) /\
      (forall l, In l (b_hits b) -> In (int_of (val l)) (map fst d)) /\
      Permutation (flat_map (fun p => b_hits (snd p)) d) (b_hits b).
Proof.
  intros N extra int_of w b name val Hv.
  destruct (split_result N extra int_of w b name val Hv) as (d & H1 & [H2 H3 H4 H5]).
  exists d. repeat (split; auto); apply (H3 _ _ H).
Qed.
Print Assumptions C17_split_partition.

(** C17.  new_list_from_read_builtin lists the bunches by strictly increasing key. *)
Theorem C17_list_sorted :
  forall d : list (Z * Bunch), NoDup (map fst d) ->
    exists ks, StronglySorted Z.lt ks /\ Permutation ks (map fst d) /\
      Forall2 (fun k b => In (k, b) d) ks (bunch_list d).
Proof.
  intros d Hd. exists (sort Z.ltb (map fst d)).
  split; [apply sorted_keys_strict, Hd|]. split; [apply sort_perm|].
  pose proof (bunch_list_result d Hd) as E.
  revert E. generalize (bunch_list d) (sort Z.ltb (map fst d)).
  intros bs ks. revert bs. induction ks as [|k ks IH]; intros [|x bs]; simpl; intros E; try discriminate.
  - constructor.
  - inversion E as [[E1 E2]]. constructor; [|apply IH; auto].
    clear -E1. induction d as [|[k' b'] d IHd]; simpl in *; [discriminate|].
    destruct (Z.eqb_spec k' k) as [->|]; [left; congruence|right; auto].
Qed.
Print Assumptions C17_list_sorted.

Example C17_case :
  let b := append (append (append (append bunch_new 0) 1) 2) 3 in
  let int_of := fun v : PyVal ZNum => @num_of ZNum v in
  exists d, split no_extra int_of (wrun ex_hits) b "particle_number" = Some d /\
    map (fun p => (fst p, b_hits (snd p))) d = [(1%Z, [0]); (2%Z, [1; 3]); (3%Z, [2])] /\
    map b_hits (bunch_list d) = [[0]; [1; 3]; [2]].
Proof. eexists. split; [vm_compute; reflexivity|]. split; vm_compute; reflexivity. Qed.

(** ---------------------------------------------------------------- C18 *)

(** C18.  Cutting on one variable: in every state reached by a program that does not
    switch weight contexts, for every bunch, comparator returning bools, cut value and
    readable variable (stored, weight or derived), exactly the weights of the hits
    fulfilling the comparison become 0: for global weights also those of hits on the same
    track, for local weights only those of the hits themselves. *)
Theorem C18_cut_exact :
  forall (N : NumOps) extra (cmp : PyVal N -> N -> CmpRes) (p : list (WOp N)) (b : Bunch)
         (name : string) (c : N) (g : bool),
    @nofZ N 0 = n0 -> total cmp -> never_switches p -> in_step b ->
    (forall l, In l (b_hits b) -> is_hit (wrun p) l /\
       get_hit_variable extra (wrun p) (b_hits b) name l <> None) ->
    let (w', ok) := cut extra cmp no_scale (wrun p) b [(name, c)] g in
    ok = true /\
    zeroed g (wrun p) w' (fun l => In l (b_hits b) /\
      selected (fun w n l => get_hit_variable extra w (b_hits b) n l) cmp (wrun p) name c l).
Proof.
  intros N extra cmp p b name c g Hz T Hn Hb Hh. simpl.
  assert (H1 : forall l, In l (b_hits b) -> is_hit (wrun p) l) by (intros l Hl; apply (Hh l Hl)).
  assert (H2 : forall l, In l (b_hits b) -> get_hit_variable extra (wrun p) (b_hits b) name l <> None)
    by (intros l Hl; apply (Hh l Hl)).
  pose proof (cut_one_result N Hz extra cmp T (wrun p) b name c g (wf_run N p)
                (never_switches_cur p Hn) Hb H1 H2) as Q.
  destruct (cut_one extra cmp (wrun p) b name c g) as [w' ok]. destruct Q as (-> & Q & _).
  split; [reflexivity | exact Q].
Qed.
Print Assumptions C18_cut_exact.

(** C18.  Cutting on several stored variables at once zeroes the weights of the hits that
    fulfil at least one of the comparisons. *)
Theorem C18_cut_several :
  forall (N : NumOps) extra (cmp : PyVal N -> N -> CmpRes) (p : list (WOp N)) (b : Bunch)
         (d : list (string * N)) (g : bool),
    @nofZ N 0 = n0 -> total cmp -> never_switches p -> in_step b ->
    (forall l, In l (b_hits b) -> is_hit (wrun p) l) ->
    (forall n c, In (n, c) d -> stored n /\ n <> "local_weight") ->
    let (w', ok) := cut extra cmp no_scale (wrun p) b d g in
    ok = true /\
    zeroed g (wrun p) w' (fun l => In l (b_hits b) /\ exists n c, In (n, c) d /\
      selected (fun w n l => hit_get w l n) cmp (wrun p) n c l).
Proof.
  intros N extra cmp p b d g Hz T Hn Hb Hh Hd.
  pose proof (cut_dict_result N Hz extra cmp T g d (wrun p) (wrun p) b (fun _ => False)
    (similar_refl N (wrun p) (wf_run N p)) (never_switches_cur p Hn) Hb Hh Hd
    (cut_result_refl N g (wrun p))) as Q.
  destruct (cut extra cmp no_scale (wrun p) b d g) as [w' ok].
  destruct Q as (-> & _ & R1 & R2 & R3 & R4).
  { intros y Hy. right. intros (l & [] & _). }
  split; [reflexivity|].
  assert (E : forall l, (False \/ exists n c, In (n, c) d /\ sel_of N extra cmp (wrun p) (b_hits b) n c l) <->
    (In l (b_hits b) /\ exists n c, In (n, c) d /\ selected (fun w n l => hit_get w l n) cmp (wrun p) n c l)).
  { intros l. unfold sel_of, selected. split.
    - intros [[]|(n & c & Hd' & Hl & v & Hv & Hc)]. split; auto. exists n, c. split; auto.
      exists v. split; auto. unfold get_hit_variable in Hv.
      destruct (Hd n c Hd') as [Hs _]. destruct (stored_readable N (wrun p) l n (Hh l Hl) Hs) as [u Hu].
      rewrite Hu in Hv. congruence.
    - intros (Hl & n & c & Hd' & v & Hv & Hc). right. exists n, c. split; auto. split; auto.
      exists v. split; auto. unfold get_hit_variable. rewrite Hv. reflexivity. }
  unfold zeroed. split; [|split; [|split; auto]].
  - intros y Hy (l & Hl & Hs). apply R1; auto. exists l. rewrite E. auto.
  - intros y Hy Hno. apply R2; auto. intros (l & Hl & Hs). apply Hno. exists l. rewrite <- E. auto.
Qed.
Print Assumptions C18_cut_several.

(** C18.  The C++ path and the Python path of a cut agree on every reading of every hit. *)
Theorem C18_paths_agree :
  forall (N : NumOps) extra (cmp : PyVal N -> N -> CmpRes) (p : list (WOp N)) (b : Bunch)
         (name : string) (k : DblKey) (c : N) (g : bool),
    @nofZ N 0 = n0 -> total cmp -> never_switches p -> in_step b ->
    (forall l, In l (b_hits b) -> is_hit (wrun p) l) ->
    core_float_key name = Some k ->
    let w1 := fst (cut_double_loop cmp (wrun p) (b_core b) k c g) in
    let w2 := fst (py_cut extra cmp (wrun p) b name c
                     (if g then "global_weight" else "local_weight")) in
    forall y n, is_hit (wrun p) y -> hit_get w1 y n = hit_get w2 y n.
Proof.
  intros N extra cmp p b name k c g Hz T Hn Hb Hh Hk w1 w2 y n Hy.
  assert (Ha := core_key_assoc name k Hk).
  assert (H2 : forall l, In l (b_hits b) -> get_hit_variable extra (wrun p) (b_hits b) name l <> None).
  { intros l Hl. unfold get_hit_variable, hit_get. specialize (Hh l Hl). unfold is_hit in Hh.
    destruct (w_hits (wrun p) l); [|congruence]. unfold core_get. rewrite Ha. discriminate. }
  pose proof (core_cut_result N extra cmp T (wrun p) b name k c g (wf_run N p)
                (never_switches_cur p Hn) Hb Hh Ha) as Q1.
  pose proof (py_cut_result N Hz extra cmp T (wrun p) b name c g (wf_run N p) Hh H2) as Q2.
  unfold w1, w2. fold (weight_name g).
  destruct (cut_double_loop cmp (wrun p) (b_core b) k c g) as [u1 ok1].
  destruct (py_cut extra cmp (wrun p) b name c (weight_name g)) as [u2 ok2].
  destruct Q1 as (_ & Q1 & S1). destruct Q2 as (_ & Q2 & S2). simpl.
  eapply cut_results_agree; eauto.
  intros z Hz'. apply sel_dec; auto.
Qed.
Print Assumptions C18_paths_agree.

(** C18.  Without the condition on weight contexts the claim is refuted: after
    Hit.set_weight_context(WeightContext()) a global cut on a stored float leaves the
    global weight that the user reads unchanged. *)
Theorem C18_cut_after_context_switch_refuted :
  exists (p : list (WOp ZNum)) (b : Bunch),
    in_step b /\ In 0 (b_hits b) /\ is_hit (wrun p) 0 /\
    selected (fun w n l => hit_get w l n) gt_cmp (wrun p) "x" 3%Z 0 /\
    let (w', ok) := cut no_extra gt_cmp no_scale (wrun p) b [("x", 3%Z : ZNum)] true in
    ok = true /\ hit_get w' 0 "global_weight" = Some (@PFloat ZNum 1%Z).
Proof.
  exists [WNew; WSet 0 "x" (@PFloat ZNum 5%Z); WCtx (SNew 0); WUse 0], (append bunch_new 0).
  split; [reflexivity|]. split; [simpl; auto|]. split; [hit|]. split.
  - exists (@PFloat ZNum 5%Z). split; vm_compute; reflexivity.
  - vm_compute. split; reflexivity.
Qed.
Print Assumptions C18_cut_after_context_switch_refuted.

(** C18.  "A cut that raises changes no weight" is refuted: a comparator that raises on
    the second hit leaves the first one cut. *)
Theorem C18_failed_cut_unchanged_refuted :
  exists (p : list (WOp ZNum)) (b : Bunch) (cmp : PyVal ZNum -> ZNum -> CmpRes),
    in_step b /\ never_switches p /\ (forall l, In l (b_hits b) -> is_hit (wrun p) l) /\
    let (w', ok) := cut no_extra cmp no_scale (wrun p) b [("x", 3%Z : ZNum)] false in
    ok = false /\ hit_get (wrun p) 0 "local_weight" = Some (@PFloat ZNum 1%Z) /\
    hit_get w' 0 "local_weight" = Some (@PFloat ZNum 0%Z).
Proof.
  exists [WNew; WNew; WSet 0 "x" (@PFloat ZNum 5%Z); WSet 1 "x" (@PFloat ZNum 99%Z)],
    (append (append bunch_new 0) 1),
    (fun v c => if Z.eqb (@num_of ZNum v) 99 then CRaise else gt_cmp v c).
  split; [reflexivity|]. split; [repeat constructor|]. split.
  - intros l [<-|[<-|[]]]; hit.
  - vm_compute. repeat split; reflexivity.
Qed.
Print Assumptions C18_failed_cut_unchanged_refuted.

(** Hits 1 and 3 share a track; hit 1 fails the cut, so does its track mate for a global
    cut but not for a local cut. *)
Example C18_case :
  let b := append (append (append (append bunch_new 0) 1) 2) 3 in
  in_step b /\ never_switches ex_hits /\ total gt_cmp /\
  let global := fst (cut no_extra gt_cmp no_scale (wrun ex_hits) b [("x", 4%Z : ZNum)] true) in
  let local := fst (cut no_extra gt_cmp no_scale (wrun ex_hits) b [("x", 4%Z : ZNum)] false) in
  map (fun l => hit_get global l "weight") [0; 1; 2; 3] =
    [Some (@PFloat ZNum 1%Z); Some (@PFloat ZNum 0%Z); Some (@PFloat ZNum 1%Z); Some (@PFloat ZNum 0%Z)] /\
  map (fun l => hit_get local l "weight") [0; 1; 2; 3] =
    [Some (@PFloat ZNum 1%Z); Some (@PFloat ZNum 0%Z); Some (@PFloat ZNum 1%Z); Some (@PFloat ZNum 1%Z)].
Proof.
  split; [reflexivity|]. split; [repeat constructor|]. split.
  - intros v c. unfold gt_cmp. destruct (Z.ltb _ _); auto.
  - vm_compute. split; reflexivity.
Qed.

(** ---------------------------------------------------------------- C19 *)

(** C19.  conditional_remove keeps exactly the hits for which no comparison holds, in
    their order; a kept hit is the same object; the statistics core is rebuilt in step;
    no world state changes (the operation returns none). *)
Theorem C19_remove_exact :
  forall (N : NumOps) extra (cmp : PyVal N -> N -> CmpRes) (w : World N) (b : Bunch)
         (d : list (string * N)),
    total cmp -> in_step b ->
    (forall l n c, In l (b_hits b) -> In (n, c) d -> hit_get w l n <> None) ->
    let (b', ok) := conditional_remove extra cmp no_scale w b d in
    ok = true /\ in_step b' /\
    exists keep : nat -> bool,
      b_hits b' = filter keep (b_hits b) /\
      forall l, In l (b_hits b) ->
        (keep l = true <->
         ~ exists n c, In (n, c) d /\ selected (fun w n l => hit_get w l n) cmp w n c l).
Proof.
  intros N extra cmp w b d T Hb Hv.
  rewrite (remove_filter N extra cmp w d T b Hb Hv). simpl.
  split; auto. split; [reflexivity|].
  eexists. split; [reflexivity|]. intros l Hl. cbv beta. rewrite forallb_forall. split.
  - intros H (n & c & Hd & v & Hg & Hc). specialize (H (n, c) Hd). simpl in H.
    unfold val0 in H. rewrite Hg in H. unfold firesb in H. rewrite Hc in H. discriminate.
  - intros H (n, c) Hd. simpl. destruct (firesb N cmp c (val0 N w n l)) eqn:E; auto.
    exfalso. apply H. exists n, c. split; auto. unfold val0 in E.
    specialize (Hv l n c Hl Hd). destruct (hit_get w l n) as [v|] eqn:G; [|congruence].
    exists v. split; auto. unfold firesb in E.
    destruct (T v c) as [X|X]; rewrite X in *; [reflexivity|discriminate].
Qed.
Print Assumptions C19_remove_exact.

Example C19_case :
  let b := append (append (append (append bunch_new 0) 1) 2) 3 in
  in_step b /\
  b_hits (fst (conditional_remove no_extra gt_cmp no_scale (wrun ex_hits) b
                 [("x", 4%Z : ZNum); ("particle_number", 2%Z : ZNum)])) = [0; 3].
Proof. vm_compute. split; reflexivity. Qed.

(** ---------------------------------------------------------------- C20 *)

(** C20.  transmission_cut on integer variables with tolerance at most 1: exactly the
    hits of the bunch whose values occur on no hit of the test bunch are cut. *)
Theorem C20_transmission_integer :
  forall extra (p : list (WOp RNum)) (b test : Bunch) (vars : list string) (tol : R) (g : bool),
    (forall l, In l (b_hits b) -> is_hit (wrun p) l) ->
    (forall l, In l (b_hits test) -> is_hit (wrun p) l) ->
    (forall n, In n vars -> In n stored_ints) ->
    (0 < tol <= 1)%R ->
    let (w', ok) := transmission_cut extra (wrun p) b test vars tol g in
    ok = true /\
    zeroed g (wrun p) w'
      (fun l => In l (b_hits b) /\ ~ transmitted (wrun p) (b_hits test) vars l).
Proof.
  intros extra p b test vars tol g Hb Ht Hv Htol.
  pose proof (transmission_int extra (wrun p) b test vars tol g (wf_run RNum p) Hb Ht Hv Htol) as Q.
  destruct (transmission_cut extra (wrun p) b test vars tol g) as [w' ok].
  destruct Q as (-> & _ & Q). split; [reflexivity | exact Q].
Qed.
Print Assumptions C20_transmission_integer.

(** C20.  The order of the hits in the test bunch does not matter. *)
Theorem C20_test_order_irrelevant :
  forall extra (p : list (WOp RNum)) (b test test' : Bunch) (vars : list string) (tol : R) (g : bool),
    (forall l, In l (b_hits b) -> is_hit (wrun p) l) ->
    (forall l, In l (b_hits test) -> is_hit (wrun p) l) ->
    (forall n, In n vars -> In n stored_ints) ->
    (0 < tol <= 1)%R ->
    Permutation (b_hits test) (b_hits test') ->
    forall y n, is_hit (wrun p) y ->
      hit_get (fst (transmission_cut extra (wrun p) b test vars tol g)) y n =
      hit_get (fst (transmission_cut extra (wrun p) b test' vars tol g)) y n.
Proof.
  intros extra p b test test' vars tol g Hb Ht Hv Htol Hp y n Hy.
  assert (Ht' : forall l, In l (b_hits test') -> is_hit (wrun p) l).
  { intros l Hl. apply Ht. eapply Permutation_in; [apply Permutation_sym|]; eauto. }
  pose proof (transmission_int extra (wrun p) b test vars tol g (wf_run RNum p) Hb Ht Hv Htol) as Q1.
  pose proof (transmission_int extra (wrun p) b test' vars tol g (wf_run RNum p) Hb Ht' Hv Htol) as Q2.
  destruct (transmission_cut extra (wrun p) b test vars tol g) as [w1 ok1].
  destruct (transmission_cut extra (wrun p) b test' vars tol g) as [w2 ok2].
  destruct Q1 as (_ & S1 & Q1). destruct Q2 as (_ & S2 & Q2). simpl.
  assert (E : forall l, lost_in (wrun p) b test vars l <-> lost_in (wrun p) b test' vars l).
  { intros l. unfold lost_in, transmitted. split; intros [A B]; (split; [exact A|]);
      intros (t & T1 & T2); apply B; exists t; (split; [|exact T2]).
    - eapply Permutation_in; [apply Permutation_sym, Hp | exact T1].
    - eapply Permutation_in; [apply Hp | exact T1]. }
  apply (cut_results_agree RNum g (wrun p) w1 w2 (lost_in (wrun p) b test vars)); auto.
  - intros z Hz. apply lost_dec; auto.
  - destruct Q2 as (R1 & R2 & R3 & R4). unfold cut_result. repeat split; auto.
    + intros z Hz (l & Hl & Hs). apply R1; auto. exists l. rewrite <- E. auto.
    + intros z Hz Hn. apply R2; auto. intros (l & Hl & Hs). apply Hn. exists l. rewrite E. auto.
Qed.
Print Assumptions C20_test_order_irrelevant.

(** C20.  Doing the same cut a second time changes nothing more. *)
Theorem C20_idempotent :
  forall extra (p : list (WOp RNum)) (b test : Bunch) (vars : list string) (tol : R) (g : bool),
    (forall l, In l (b_hits b) -> is_hit (wrun p) l) ->
    (forall l, In l (b_hits test) -> is_hit (wrun p) l) ->
    (forall n, In n vars -> In n stored_ints) ->
    (0 < tol <= 1)%R ->
    let once := fst (transmission_cut extra (wrun p) b test vars tol g) in
    let twice := fst (transmission_cut extra once b test vars tol g) in
    forall y n, is_hit (wrun p) y -> hit_get twice y n = hit_get once y n.
Proof.
  intros extra p b test vars tol g Hb Ht Hv Htol once twice y n Hy.
  pose proof (transmission_int extra (wrun p) b test vars tol g (wf_run RNum p) Hb Ht Hv Htol) as Q1.
  unfold twice. clear twice. unfold once. clear once.
  destruct (transmission_cut extra (wrun p) b test vars tol g) as [w1 ok1].
  destruct Q1 as (_ & S1 & Q1). simpl.
  assert (I : forall l, is_hit (wrun p) l <-> is_hit w1 l) by (intros l; symmetry; apply S1).
  pose proof (transmission_int extra w1 b test vars tol g (sim_wf _ _ _ S1)
    (fun l Hl => proj1 (I l) (Hb l Hl)) (fun l Hl => proj1 (I l) (Ht l Hl)) Hv Htol) as Q2.
  destruct (transmission_cut extra w1 b test vars tol g) as [w2 ok2].
  destruct Q2 as (_ & S2 & Q2). simpl.
  destruct Q1 as (A1 & A2 & A3 & A4), Q2 as (B1 & B2 & B3 & B4).
  assert (V : forall l m, In m vars -> hit_get w1 l m = hit_get (wrun p) l m).
  { intros l m Hm. destruct (ints_stored vars Hv m Hm). apply A4; auto. }
  assert (E : forall l, lost_in w1 b test vars l <-> lost_in (wrun p) b test vars l).
  { intros l. unfold lost_in, transmitted, same_values.
    split; intros [X Y]; (split; [exact X|]); intros (t & T1 & T2); apply Y; exists t;
      (split; [exact T1|]); intros m Hm; specialize (T2 m Hm).
    - rewrite !V by auto. exact T2.
    - rewrite !V in T2 by auto. exact T2. }
  assert (F : forall l, shares_weight g w1 y l <-> shares_weight g (wrun p) y l).
  { intros l. unfold shares_weight. destruct g; [|tauto]. rewrite !(similar_track RNum _ _ _ S1). tauto. }
  assert (Hy1 : is_hit w1 y) by (apply (proj1 (I y)), Hy).
  destruct (lost_dec extra g (wrun p) b test vars y Hy Hb Ht Hv) as [D|D].
  - assert (D1 : exists l, lost_in w1 b test vars l /\ shares_weight g w1 y l).
    { destruct D as (l & L1 & L2). exists l. split; [apply E, L1 | apply F, L2]. }
    assert (W : hit_get w2 y (weight_name g) = hit_get w1 y (weight_name g)).
    { rewrite (A1 y Hy D). apply B1; auto. }
    assert (W' : hit_get w2 y (weight_name (negb g)) = hit_get w1 y (weight_name (negb g))).
    { apply B3, Hy1. }
    apply reads_determined.
    + apply S2, Hy1.
    + exact Hy1.
    + intros m Hm. destruct (string_dec m "local_weight") as [->|Hne].
      * destruct g; [exact W' | exact W].
      * apply B4; auto.
    + destruct g; [exact W | exact W'].
  - apply B2; [exact Hy1|]. intros (l & L1 & L2). apply D. exists l. split; [apply E, L1 | apply F, L2].
Qed.
Print Assumptions C20_idempotent.

(** C20.  transmission_cut on any stored variables, any positive tolerance: a hit of the
    bunch with exactly the values of a test hit is never selected for cutting; a hit that
    is not within the tolerance of any test hit always is.  In between the outcome
    depends on the order of the sorted values: see the refutation below. *)
Theorem C20_transmission_bounds :
  forall extra (p : list (WOp RNum)) (b test : Bunch) (vars : list string) (tol : R) (g : bool),
    (forall l, In l (b_hits b) -> is_hit (wrun p) l) ->
    (forall l, In l (b_hits test) -> is_hit (wrun p) l) ->
    (forall n, In n vars -> stored n /\ n <> "local_weight") ->
    (0 < tol)%R ->
    let (w', ok) := transmission_cut extra (wrun p) b test vars tol g in
    exists lost : nat -> Prop,
    ok = true /\ zeroed g (wrun p) w' lost /\
    (forall l, lost l -> In l (b_hits b) /\
       ~ exists t, In t (b_hits test) /\ reals_of (wrun p) vars t = reals_of (wrun p) vars l) /\
    (forall l, In l (b_hits b) ->
       (~ exists t, In t (b_hits test) /\
            (l1_dist (reals_of (wrun p) vars t) (reals_of (wrun p) vars l) < tol)%R) ->
       lost l).
Proof.
  intros extra p b test vars tol g Hb Ht Hv Htol.
  pose proof (transmission_result extra (wrun p) b test vars tol g (wf_run RNum p) Hb Ht Hv Htol) as Q.
  destruct (transmission_cut extra (wrun p) b test vars tol g) as [w' ok].
  destruct Q as (lost & Q1 & Q2 & Q3 & Q4 & Q5 & Q6). exists lost.
  split; [exact Q1|]. split; [exact Q2|]. split; [exact Q4 | exact Q5].
Qed.
Print Assumptions C20_transmission_bounds.

(** C20.  "A hit is kept exactly if some test hit is within the tolerance" is refuted:
    test value 0.9, hit value 1, tolerance 0.5. The value just below is never compared. *)
Theorem C20_tolerance_refuted :
  exists (p : list (WOp QNum)) (b test : Bunch),
    in_step b /\ in_step test /\
    hit_get (wrun p) 1 "x" = Some (@PFloat QNum (9#10)) /\ b_hits test = [1] /\
    hit_get (wrun p) 0 "x" = Some (@PFloat QNum (1#1)) /\ b_hits b = [0] /\
    let (w', ok) := transmission_cut no_extra (wrun p) b test ["x"] ((1#2) : QNum) false in
    ok = true /\ hit_get w' 0 "local_weight" = Some (@PFloat QNum 0%Q).
Proof.
  exists [WNew; WNew; WSet 0 "x" (@PFloat QNum (1#1)); WSet 1 "x" (@PFloat QNum (9#10))],
    (append bunch_new 0), (append bunch_new 1).
  vm_compute. repeat split; reflexivity.
Qed.
Print Assumptions C20_tolerance_refuted.

(** Hits 0, 1 in the bunch, hits 2, 3 in the test bunch, hit 1 was lost. *)
Definition ex_transmission : list (WOp RNum) :=
  [ WNew; WNew; WNew; WNew;
    WSet 0 "event_number" (PInt 1%Z); WSet 1 "event_number" (PInt 2%Z);
    WSet 2 "event_number" (PInt 3%Z); WSet 3 "event_number" (PInt 1%Z) ].

Example C20_case :
  let b := append (append bunch_new 0) 1 in
  let test := append (append bunch_new 2) 3 in
  (forall l, In l (b_hits b) -> is_hit (wrun ex_transmission) l) /\
  (forall l, In l (b_hits test) -> is_hit (wrun ex_transmission) l) /\
  (0 < 1/10 <= 1)%R /\
  transmitted (wrun ex_transmission) (b_hits test) ["event_number"] 0 /\
  ~ transmitted (wrun ex_transmission) (b_hits test) ["event_number"] 1.
Proof.
  assert (G : forall l, l < 4 -> exists z, hit_get (wrun ex_transmission) l "event_number" = Some (PInt z) /\
            z = nth l [1; 2; 3; 1]%Z 0%Z).
  { intros l Hl. do 4 (destruct l as [|l]; [eexists; split; reflexivity|]). lia. }
  assert (H : forall l, l < 4 -> is_hit (wrun ex_transmission) l).
  { intros l Hl. destruct (G l Hl) as (z & E & _). eapply is_hit_of_get, E. }
  split; [intros l [<-|[<-|[]]]; apply H; lia|].
  split; [intros l [<-|[<-|[]]]; apply H; lia|].
  split; [lra|]. split.
  - exists 3. split; [right; left; reflexivity|]. intros v [<-|[]]. reflexivity.
  - intros (t & [<-|[<-|[]]] & E); specialize (E "event_number" (or_introl eq_refl)); vm_compute in E; discriminate.
Qed.
