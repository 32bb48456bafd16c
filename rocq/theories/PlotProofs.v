(** Lemmas on the plotting functions. *)
From Coq Require Import Reals ZArith Lia Lra String List Bool Permutation Sorted DecimalString DecimalNat Ascii.
From Verif Require Import Num WeightModel HitcoreModel PyLibModel PyLibProofs BunchModel HitPyModel
  MomentModel MomentSpec BunchNumModel HitPySpec CommonModel CommonSpec CommonProofs EllipseModel TableModel QueryModel QueryProofs
  PlotModel PlotSpec.
Import ListNotations.
Open Scope string_scope.
Open Scope list_scope.
Open Scope R_scope.

(** ---- min_max ---- *)
Lemma py_limits l margin : let lo := match l with [] => 0 | y :: r => py_min r y end in
    let hi := match l with [] => 0 | y :: r => py_max r y end in
    let lo1 := lo - (hi - lo) * margin in let hi1 := hi + (hi - lo) * margin in
    let small := rltb (hi1 - lo1) (1 / 1000000000) in
    limits margin l (if small then lo1 - 1 else lo1) (if small then hi1 + 1 else hi1).
Proof.
  cbv zeta. destruct l as [|y r].
  - left. split; auto. rewrite (proj2 (rltb_true _ _)) by lra. lra.
  - right. exists (py_min r y), (py_max r y).
    destruct (py_min_spec r y) as (A & A1 & A2). destruct (py_max_spec r y) as (B & B1 & B2).
    split; [split; [destruct A as [-> | A]; simpl; auto|intros x [<- | Hx]; auto]|].
    split; [split; [destruct B as [-> | B]; simpl; auto|intros x [<- | Hx]; auto]|].
    destruct (rltb _ _) eqn:E; [apply rltb_true in E; right|apply rltb_false in E; left]; lra.
Qed.

Lemma min_max_axis xs ws margin xmin xmax : List.length ws = List.length xs \/ ws = [] ->
  exists l lo hi, (ws = [] -> l = xs) /\ (List.length ws = List.length xs -> l = heavy xs ws) /\
    axis margin l xmin xmax lo hi /\ min_max xs ws margin xmin xmax = inr (lo, hi, xs).
Proof.
  intros H. destruct (min_max_cases xs ws margin xmin xmax H) as (sel & A & B & E). cbv zeta in E.
  exists sel. eexists. eexists. split; auto. split; auto. split; [|exact E].
  eexists. eexists. split; [apply (py_limits sel margin)|]. split; reflexivity.
Qed.

Lemma heavy_counted xs ws : counted xs ws (heavy xs ws).
Proof.
  intros x. unfold heavy. split.
  - intros H. apply in_map_iff in H. destruct H as ([a v] & <- & H). apply filter_In in H. destruct H as [H W].
    apply rltb_true in W. exists v. auto.
  - intros (v & H & W). apply in_map_iff. exists (x, v). split; auto. apply filter_In. split; auto. apply rltb_true. exact W.
Qed.

Lemma limits_inside margin l lo hi : 0 <= margin -> limits margin l lo hi -> lo < hi /\ forall x, In x l -> lo <= x <= hi.
Proof.
  intros M [(-> & -> & ->) | (a & b & (A1 & A2) & (B1 & B2) & D)]; [split; [lra|intros x []]|].
  pose proof (A2 b B1) as L. assert (0 <= margin * (b - a)) by (apply Rmult_le_pos; lra). cbv zeta in D.
  split; [lra|]. intros x Hx. specialize (A2 x Hx). specialize (B2 x Hx). lra.
Qed.
Lemma limits_strict margin l lo hi : 0 < margin -> limits margin l lo hi -> forall x, In x l -> lo < x < hi.
Proof.
  intros M [(-> & -> & ->) | (a & b & (A1 & A2) & (B1 & B2) & D)]; [intros x []|].
  pose proof (A2 b B1) as L. cbv zeta in D. intros x Hx. specialize (A2 x Hx). specialize (B2 x Hx).
  destruct (Req_EM_T a b) as [-> | N].
  - assert (margin * (b - b) = 0) by ring. lra.
  - assert (0 < margin * (b - a)) by (apply Rmult_lt_0_compat; lra). lra.
Qed.

(** ---- points ---- *)
Definition lt_x (p q : R * R) : bool := rltb (fst p) (fst q).
Lemma lt_x_weak : weak_order lt_x.
Proof. pose proof rltb_weak as [A B]. constructor; intros; unfold lt_x in *; eauto. Qed.

Lemma combine_fst {A B} (l : list A) (m : list B) : List.length l = List.length m -> map fst (combine l m) = l.
Proof. revert m. induction l as [|a l IH]; intros [|b m] L; try discriminate; cbn [combine map]; auto. cbn [fst]. f_equal. auto. Qed.
Lemma combine_snd {A B} (l : list A) (m : list B) : List.length l = List.length m -> map snd (combine l m) = m.
Proof. revert m. induction l as [|a l IH]; intros [|b m] L; try discriminate; cbn [combine map]; auto. cbn [snd]. f_equal. auto. Qed.
Lemma combine_split {A B} (l : list (A * B)) : combine (map fst l) (map snd l) = l.
Proof. induction l as [|[a b] l IH]; cbn [map combine fst snd]; congruence. Qed.

Lemma sort_two_ok xs ys : List.length xs = List.length ys ->
  exists s, sort_two xs ys = inr (map fst s, map snd s) /\ by_x s (combine xs ys).
Proof.
  intros L. exists (sort lt_x (combine xs ys)). split.
  - unfold sort_two. set (f := fun (i : nat) (p : R * R) => match i with O => fst p | _ => snd p end).
    pose proof (multisort_items rltb f 2 (combine xs ys) ltac:(lia)) as E. cbn [seq map] in E.
    change (map (f 0%nat)) with (map (@fst R R)) in E. change (map (f 1%nat)) with (map (@snd R R)) in E.
    rewrite combine_fst, combine_snd in E by auto. rewrite E. reflexivity.
  - split; [apply sort_perm|]. split.
    + pose proof (sort_sorted lt_x lt_x_weak (combine xs ys)) as S1. revert S1. generalize (sort lt_x (combine xs ys)).
      intros l S1. induction S1 as [|a l S1 IH F]; constructor; auto. revert F. apply Forall_impl. intros c C.
      unfold PyLibProofs.le, lt_x, rltb in C. destruct (Rlt_dec _ _); [discriminate|lra].
    + intros x. apply sort_stable. intros a c. unfold lt_x, rltb.
      destruct (Req_EM_T (fst a) x), (Req_EM_T (fst c) x); try discriminate. intros _ _. destruct (Rlt_dec _ _); auto; lra.
Qed.

(** ---- fills ---- *)
Lemma fills_weights xs ys ws : List.length ws = List.length xs -> fills xs ys ws = combine (combine xs ys) ws.
Proof. intros L. unfold fills. rewrite L, Nat.eqb_refl. reflexivity. Qed.

(** ---- names ---- *)
Lemma to_uint_nonnil k : Nat.to_uint k <> Decimal.Nil.
Proof.
  intros E. assert (Z : k = 0%nat) by (rewrite <- (Unsigned.of_to k), E; reflexivity). subst. discriminate.
Qed.
Lemma nat_str_inj i j : nat_str i = nat_str j -> i = j.
Proof.
  unfold nat_str. intros E. apply (f_equal NilZero.uint_of_string) in E.
  rewrite !NilZero.usu in E by apply to_uint_nonnil. injection E as E. apply Unsigned.to_uint_inj. exact E.
Qed.

(** What follows the last character c. *)
Fixpoint tail_after (c : Ascii.ascii) (s : string) : option string :=
  match s with
  | EmptyString => None
  | String d r => match tail_after c r with Some t => Some t | None => if Ascii.eqb d c then Some r else None end
  end.
Lemma tail_after_app c a s : tail_after c s = None -> tail_after c (a ++ String c s)%string = Some s.
Proof.
  intros N. induction a as [|d a IH]; cbn [String.append tail_after].
  - rewrite N, Ascii.eqb_refl. reflexivity.
  - rewrite IH. reflexivity.
Qed.
Lemma digits_no c d : c = " "%char \/ c = "-"%char -> tail_after c (NilEmpty.string_of_uint d) = None.
Proof.
  intros H. induction d as [|d IH|d IH|d IH|d IH|d IH|d IH|d IH|d IH|d IH|d IH]; cbn [NilEmpty.string_of_uint tail_after]; auto;
    rewrite IH; destruct H as [-> | ->]; reflexivity.
Qed.
Lemma nat_str_no c k : c = " "%char \/ c = "-"%char -> tail_after c (nat_str k) = None.
Proof.
  intros H. unfold nat_str. pose proof (to_uint_nonnil k) as N. destruct (Nat.to_uint k) as [|d|d|d|d|d|d|d|d|d|d]; [congruence|..];
    cbn [NilZero.string_of_uint]; apply digits_no; exact H.
Qed.
Lemma numbered_inj c a b i j : c = " "%char \/ c = "-"%char ->
  (a ++ String c (nat_str i))%string = (b ++ String c (nat_str j))%string -> i = j.
Proof.
  intros H E. apply (f_equal (tail_after c)) in E. rewrite !tail_after_app in E by (apply nat_str_no; auto).
  injection E as E. apply nat_str_inj. exact E.
Qed.

Definition numbered (c : ascii) (names : list string) : Prop :=
  forall i s, nth_error names i = Some s -> exists a, s = (a ++ String c (nat_str i))%string.
Lemma numbered_nodup c names : c = " "%char \/ c = "-"%char -> numbered c names -> NoDup names.
Proof.
  intros H N. apply NoDup_nth_error. intros i j Hi E. apply nth_error_Some in Hi.
  destruct (nth_error names i) as [s|] eqn:E1; [|congruence]. symmetry in E.
  destruct (N i s E1) as (a & A). destruct (N j s E) as (b & B). subst s. apply (numbered_inj c a b); auto.
Qed.
Lemma numbered_snoc c names a : numbered c names -> numbered c (names ++ [(a ++ String c (nat_str (List.length names)))%string]).
Proof.
  intros N i s E. destruct (Nat.lt_ge_cases i (List.length names)) as [L|L].
  - rewrite nth_error_app1 in E by auto. auto.
  - rewrite nth_error_app2 in E by auto. destruct (i - List.length names)%nat as [|k] eqn:D; cbn [nth_error] in E.
    + assert (i = List.length names) by lia. subst i. injection E as <-. eauto.
    + destruct k; discriminate.
Qed.

Definition names_ok (k : Kept) : Prop := numbered "-"%char (k_canvas k) /\ numbered " "%char (map rh_name (k_hist k)).

Lemma hist_kept k name xs xt nx ys yt ny ws xmin xmax ymin ymax title k' r :
  make_root_histogram k name xs xt nx ys yt ny ws xmin xmax ymin ymax title = (k', r) ->
  (exists e, k' = k /\ r = inl e) \/
  exists h a b, r = inr (h, a, b) /\ k' = mkKept (k_canvas k) (k_hist k ++ [h]) (k_graph k) /\
    rh_name h = (name ++ " " ++ nat_str (List.length (k_hist k)))%string.
Proof.
  unfold make_root_histogram. intros E.
  repeat match type of E with
  | context [match ?x with _ => _ end] => destruct x; try (injection E as <- <-; eauto; fail)
  | (let (_, _) := ?x in _) = _ => destruct x
  end; injection E as <- <-; right; do 3 eexists; (split; [reflexivity|split; reflexivity]).
Qed.
Lemma hist_names k h name : names_ok k -> rh_name h = (name ++ " " ++ nat_str (List.length (k_hist k)))%string ->
  forall g, names_ok (mkKept (k_canvas k) (k_hist k ++ [h]) g).
Proof.
  intros [A B] E g. split; cbn [k_canvas k_hist]; auto. rewrite map_app. cbn [map]. rewrite E.
  rewrite <- (map_length rh_name (k_hist k)). apply (numbered_snoc " "%char). exact B.
Qed.

Lemma multi_loop_kept xss : forall k yss acc k' r, multi_loop k xss yss acc = (k', r) ->
  k_canvas k' = k_canvas k /\ k_hist k' = k_hist k.
Proof.
  induction xss as [|xs xr IH]; intros k yss acc k' r E; cbn [multi_loop] in E.
  - injection E as <- <-. auto.
  - match type of E with (match ?x with _ => _ end) = _ => destruct x end.
    + destruct (IH _ _ _ _ _ E) as [A B]. auto.
    + injection E as <- <-. auto.
Qed.

(** What every call does: it keeps the graphs and makes names in order. *)
Definition grows (k k' : Kept) : Prop :=
  (names_ok k -> names_ok k') /\ forall g, In g (k_graph k) -> In g (k_graph k').
Lemma grows_refl k : grows k k.
Proof. split; auto. Qed.
Lemma grows_trans a b c : grows a b -> grows b c -> grows a c.
Proof. intros [A1 A2] [B1 B2]. split; auto. Qed.
Lemma canvas_grows k name : grows k (fst (make_root_canvas k name)).
Proof.
  split; [|auto]. intros [A B]. split; cbn; auto. apply (numbered_snoc "-"%char). exact A.
Qed.
Lemma hist_grows k name xs xt nx ys yt ny ws xmin xmax ymin ymax title :
  grows k (fst (make_root_histogram k name xs xt nx ys yt ny ws xmin xmax ymin ymax title)).
Proof.
  destruct (make_root_histogram _ _ _ _ _ _ _ _ _ _ _ _ _ _) as [k' r] eqn:E.
  destruct (hist_kept _ _ _ _ _ _ _ _ _ _ _ _ _ _ _ _ E) as [(e & -> & _) | (h & a & b & _ & -> & H)]; [apply grows_refl|].
  split; [|auto]. intros N. apply (hist_names k h name); auto.
Qed.
Lemma graph_grows k name xs xt ys yt srt xmin xmax ymin ymax title :
  grows k (fst (make_root_graph k name xs xt ys yt srt xmin xmax ymin ymax title)).
Proof.
  unfold make_root_graph.
  destruct (_ || _)%bool; [apply grows_refl|]. destruct (if srt then _ else _) as [e|[xs' ys']]; [apply grows_refl|].
  destruct (of_cerr _) as [e|[[xl xh] ?]]; [apply grows_refl|]. destruct (of_cerr _) as [e|[[yl yh] ?]]; [apply grows_refl|].
  destruct (make_root_histogram _ _ _ _ _ _ _ _ _ _ _ _ _ _) as [k' r] eqn:E.
  destruct (hist_kept _ _ _ _ _ _ _ _ _ _ _ _ _ _ _ _ E) as [(e & -> & ->) | (h & a & b & -> & -> & H)]; [apply grows_refl|].
  cbn [fst k_canvas k_hist k_graph]. split; [|intros g G; apply in_or_app; auto].
  intros N. apply (hist_names k h name); auto.
Qed.
Lemma multi_grows k name xss xt yss yt : grows k (fst (make_root_multigraph k name xss xt yss yt)).
Proof.
  unfold make_root_multigraph.
  destruct (of_cerr _) as [e|[[xl xh] ?]]; [apply grows_refl|]. destruct (of_cerr _) as [e|[[yl yh] ?]]; [apply grows_refl|].
  assert (G : forall g xss k yss acc, In g (k_graph k) -> In g (k_graph (fst (multi_loop k xss yss acc)))).
  { clear. intros g. induction xss as [|xs xr IH]; intros k yss acc I; cbn [multi_loop]; auto.
    match goal with |- context [match ?x with Some _ => _ | None => _ end] => destruct x end; auto.
    apply IH. cbn [k_graph]. apply in_or_app. auto. }
  destruct (multi_loop _ _ _ _) as [k' r] eqn:E. destruct (multi_loop_kept _ _ _ _ _ _ E) as [A B].
  split.
  - intros N. destruct r as [e|gs]; cbn [fst].
    + destruct N as [N1 N2]. split; [rewrite A|rewrite B]; auto.
    + rewrite A, B. apply (hist_names k _ name); auto.
  - intros g I. specialize (G g xss k yss [] I). rewrite E in G. destruct r; exact G.
Qed.
Lemma rcall_grows k c : c = RClear \/ grows k (rcall k c).
Proof.
  destruct c as [name | name xs xt nx ys yt ny ws xmin xmax ymin ymax title
    | name xs xt ys yt srt xmin xmax ymin ymax title | name xss xt yss yt
    | ex flag inv w fx b x ux y uy nx ny canvas xmin xmax ymin ymax title draw
    | ex flag inv w fx b x y ux uy weightless canvas xmin xmax ymin ymax title
    | ex flag w bs x xv y yv ux uy canvas comparator xmin xmax ymin ymax title |]; [right..|left; reflexivity]; unfold rcall.
  - apply canvas_grows.
  - apply hist_grows.
  - apply graph_grows.
  - apply multi_grows.
  - unfold root_histogram. destruct (points_1d _ _ _ _ _ _ x ux) as [e|xs]; [apply grows_refl|].
    destruct (if (negb _ && _)%bool then _ else _) as [e|[[[draw1 ys] nx2] ny2]]; [apply grows_refl|].
    set (name := if String.eqb y "" then x else _). clearbody name.
    assert (C : grows k (fst (match canvas with Some c => (k, c) | None => make_root_canvas k name end))).
    { destruct canvas; [apply grows_refl|apply canvas_grows]. }
    destruct (match canvas with Some c => (k, c) | None => make_root_canvas k name end) as [k1 c]. cbn [fst] in C.
    match goal with |- grows _ (fst (match ?m with _ => _ end)) => pose proof (hist_grows k1 name xs (x ++ unit_label ux "")%string nx2 ys
      (y ++ unit_label uy "")%string ny2 (map (hit_weight w) (b_hits b)) xmin xmax ymin ymax title) as H; destruct m as [k2 [e|[[h ?] ?]]] end;
      eapply grows_trans; eauto.
  - unfold root_scatter_graph. destruct (scatter_points _ _ _ _ _ _ _ _ _ _ _) as [e|[xs ys]]; [apply grows_refl|].
    match goal with |- grows _ (fst (match make_root_graph ?a ?b ?c ?d ?e ?f ?g ?h ?i ?j ?l ?m with _ => _ end)) =>
      pose proof (graph_grows a b c d e f g h i j l m) as H; destruct (make_root_graph a b c d e f g h i j l m) as [k1 [er|[hh gg]]] end; [exact H|].
    destruct canvas; [exact H|]. cbn [fst] in H |- *. eapply grows_trans; [exact H|]. apply canvas_grows.
  - unfold root_graph. destruct comparator; [apply grows_refl|]. cbv zeta.
    destruct (numbers _) as [e|xs]; [apply grows_refl|]. destruct (numbers _) as [e|ys]; [apply grows_refl|].
    match goal with |- grows _ (fst (match make_root_graph ?a ?b ?c ?d ?e ?f ?g ?h ?i ?j ?l ?m with _ => _ end)) =>
      pose proof (graph_grows a b c d e f g h i j l m) as H; destruct (make_root_graph a b c d e f g h i j l m) as [k1 [er|[hh gg]]] end; [exact H|].
    destruct canvas; [exact H|]. cbn [fst] in H |- *. eapply grows_trans; [exact H|]. apply canvas_grows.
Qed.
Lemma rcall_names k c : names_ok k -> names_ok (rcall k c).
Proof.
  intros N. destruct (rcall_grows k c) as [-> | [G _]]; auto. split; intros i s E; destruct i; discriminate.
Qed.
Lemma rcalls_names cs : names_ok (rcalls cs).
Proof.
  unfold rcalls. assert (N : names_ok (mkKept [] [] [])) by (split; intros i s E; destruct i; discriminate).
  revert N. generalize (mkKept [] [] []). induction cs as [|c cs IH]; intros k N; cbn [fold_left]; auto.
  apply IH, rcall_names, N.
Qed.

(** ---- bins of ROOT ---- *)
Lemma root_bin_range n lo hi x : (1 <= n)%Z -> lo < hi -> (0 <= root_bin n lo hi x <= n + 1)%Z.
Proof.
  intros N L. unfold root_bin. destruct (Rlt_dec x lo); [lia|]. destruct (Rlt_dec x hi); [|lia].
  set (z := IZR n * (x - lo) / (hi - lo)). pose proof (archimed z) as [U1 U2].
  assert (NP : 1 <= IZR n) by (apply (IZR_le 1); auto).
  assert (Z0 : 0 <= z).
  { unfold z. apply Rmult_le_pos; [apply Rmult_le_pos; lra|]. left. apply Rinv_0_lt_compat. lra. }
  assert (Z1 : z < IZR n).
  { unfold z. apply (Rmult_lt_reg_r (hi - lo)); [lra|]. unfold Rdiv. rewrite Rmult_assoc, Rinv_l, Rmult_1_r by lra.
    apply Rmult_lt_compat_l; lra. }
  assert (0 < up z)%Z by (apply lt_IZR; lra). assert (up z < n + 1)%Z by (apply lt_IZR; rewrite plus_IZR; lra). lia.
Qed.
Lemma root_bin_in n lo hi x i : (1 <= n)%Z -> lo < hi -> (1 <= i <= n)%Z ->
  (root_bin n lo hi x = i <->
   lo + IZR (i - 1) * ((hi - lo) / IZR n) <= x < lo + IZR i * ((hi - lo) / IZR n)).
Proof.
  intros N L I. assert (NP : 1 <= IZR n) by (apply (IZR_le 1); auto).
  set (z := IZR n * (x - lo) / (hi - lo)). set (d := (hi - lo) / IZR n).
  assert (D : 0 < d) by (unfold d; apply Rmult_lt_0_compat; [lra|apply Rinv_0_lt_compat; lra]).
  assert (X : x = lo + z * d) by (unfold z, d; field; split; lra).
  assert (HI : hi = lo + IZR n * d) by (unfold d; field; lra).
  assert (I1 : 1 <= IZR i <= IZR n) by (split; apply IZR_le; lia). rewrite minus_IZR.
  unfold root_bin. fold z. pose proof (archimed z) as [U1 U2]. split.
  - destruct (Rlt_dec x lo); [lia|]. destruct (Rlt_dec x hi); [|lia]. intros E.
    assert (E2 : up z = i) by lia. rewrite E2 in *. rewrite X. split; apply Rplus_le_compat_l || apply Rplus_lt_compat_l;
      [apply Rmult_le_compat_r; lra|apply Rmult_lt_compat_r; lra].
  - intros [A B]. assert (A2 : IZR i - 1 <= z) by (apply (Rmult_le_reg_r d); auto; lra).
    assert (B2 : z < IZR i) by (apply (Rmult_lt_reg_r d); auto; lra).
    destruct (Rlt_dec x lo) as [Q|Q].
    { exfalso. assert (z * d < 0) by lra. assert (0 <= z * d) by (apply Rmult_le_pos; lra). lra. }
    destruct (Rlt_dec x hi) as [P|P].
    + assert (up z = i); [|lia]. symmetry. apply tech_up; lra.
    + exfalso. assert (IZR n * d <= z * d) by lra. assert (IZR n <= z) by (apply (Rmult_le_reg_r d); auto). lra.
Qed.

Lemma rsum_zero {A} (f : A -> R) l : (forall x, In x l -> f x = 0) -> rsum f l = 0.
Proof. induction l as [|x l IH]; intros H; cbn [rsum]; auto. rewrite H by (simpl; auto). rewrite IH; [lra|]. intros; apply H; simpl; auto. Qed.
Lemma rsum_swap {A B} (f : A -> B -> R) l m : rsum (fun a => rsum (f a) m) l = rsum (fun b => rsum (fun a => f a b) l) m.
Proof.
  induction l as [|a l IH]; cbn [rsum].
  - symmetry. apply rsum_zero. reflexivity.
  - rewrite IH. clear IH. induction m as [|b m IH]; cbn [rsum]; [lra|]. rewrite <- IH. lra.
Qed.
Lemma rsum_ext_in {A} (f g : A -> R) l : (forall x, In x l -> f x = g x) -> rsum f l = rsum g l.
Proof. induction l as [|x l IH]; intros H; cbn [rsum]; auto. rewrite H by (simpl; auto). rewrite IH; auto. intros; apply H; simpl; auto. Qed.
Lemma rsum_one (v : R) (b from : Z) (k : nat) : (from <= b < from + Z.of_nat k)%Z ->
  rsum (fun i => if Z.eqb b (from + Z.of_nat i) then v else 0) (seq 0 k) = v.
Proof.
  intros H. assert (E : exists j, (j < k)%nat /\ b = (from + Z.of_nat j)%Z) by (exists (Z.to_nat (b - from)); lia).
  destruct E as (j & J & ->).
  assert (G : forall m s, rsum (fun i => if Z.eqb (from + Z.of_nat j) (from + Z.of_nat i) then v else 0) (seq s m) =
    if ((s <=? j) && (j <? s + m))%nat%bool then v else 0).
  { induction m as [|m IH]; intros s; cbn [seq rsum].
    - destruct (Nat.leb_spec s j), (Nat.ltb_spec j (s + 0)); cbn; auto; lia.
    - rewrite IH. destruct (Z.eqb_spec (from + Z.of_nat j) (from + Z.of_nat s)) as [Q|Q].
      + assert (j = s) by lia. subst s. rewrite Nat.leb_refl. destruct (Nat.leb_spec (S j) j); [lia|].
        destruct (Nat.ltb_spec j (j + S m)); [|lia]. cbn. lra.
      + destruct (Nat.leb_spec s j), (Nat.leb_spec (S s) j), (Nat.ltb_spec j (S s + m)), (Nat.ltb_spec j (s + S m)); cbn; try lia; lra. }
  rewrite G. destruct (Nat.leb_spec 0 j); [|lia]. destruct (Nat.ltb_spec j (0 + k)); [|lia]. reflexivity.
Qed.
Lemma sum_bins_range n lo hi fs from k (P : forall f, In f fs -> (from <= root_bin n lo hi (fst f) < from + Z.of_nat k)%Z) :
  sum_bins (bin_content n lo hi fs) from k = rsum snd fs.
Proof.
  unfold sum_bins, bin_content. rewrite rsum_swap. apply rsum_ext_in. intros f Hf. apply rsum_one. auto.
Qed.
Lemma sum_bins_split f from a b : sum_bins f from (a + b) = sum_bins f from a + sum_bins f (from + Z.of_nat a) b.
Proof.
  unfold sum_bins. rewrite seq_app. assert (G : forall (g : nat -> R) l m, rsum g (l ++ m) = rsum g l + rsum g m).
  { intros g l m. induction l as [|x l IH]; cbn [app rsum]; lra. }
  rewrite G. f_equal.
  assert (S1 : forall m c, seq (a + c) m = map (fun i => (a + i)%nat) (seq c m)).
  { induction m as [|m IH]; intros c'; cbn [seq map]; auto. f_equal. rewrite <- IH. f_equal. lia. }
  replace (0 + a)%nat with (a + 0)%nat by lia. rewrite S1.
  assert (M : forall (g : nat -> R) (h : nat -> nat) l, rsum g (map h l) = rsum (fun i => g (h i)) l).
  { intros g h l. induction l as [|x l IH]; cbn [map rsum]; congruence. }
  rewrite M. apply rsum_ext_in. intros i _. f_equal. lia.
Qed.

(** ---- limits depend on the values only ---- *)
Lemma limits_same margin l m lo hi : (forall x, In x l <-> In x m) -> limits margin l lo hi -> limits margin m lo hi.
Proof.
  intros S [(-> & A & B) | (a & b & (A1 & A2) & (B1 & B2) & D)].
  - left. split; auto. destruct m as [|x m]; auto. exfalso. apply (S x). simpl. auto.
  - right. exists a, b. split; [split; [apply S; auto|intros x Hx; apply A2, S, Hx]|].
    split; [split; [apply S; auto|intros x Hx; apply B2, S, Hx]|]. exact D.
Qed.
Lemma axis_same margin l m xmin xmax lo hi : (forall x, In x l <-> In x m) -> axis margin l xmin xmax lo hi -> axis margin m xmin xmax lo hi.
Proof. intros S (a & b & L & A & B). exists a, b. split; auto. eapply limits_same; eauto. Qed.

Lemma min_max_plain xs margin xmin xmax :
  exists lo hi, axis margin xs xmin xmax lo hi /\ min_max xs [] margin xmin xmax = inr (lo, hi, xs).
Proof.
  destruct (min_max_axis xs [] margin xmin xmax (or_intror eq_refl)) as (l & lo & hi & A & _ & C & E).
  rewrite (A eq_refl) in C. eauto.
Qed.

Lemma perm_in_map {A B} (f : A -> B) l m : Permutation l m -> forall x, In x (map f l) <-> In x (map f m).
Proof. intros P x. split; intros H; [apply (Permutation_in x (Permutation_map f P))|apply (Permutation_in x (Permutation_map f (Permutation_sym P)))]; exact H. Qed.

Lemma all_opt_map {A B} (f : A -> option B) g l : (forall x, In x l -> f x = Some (g x)) -> all_opt (map f l) = Some (map g l).
Proof.
  induction l as [|x l IH]; intros H; cbn [map all_opt]; auto. rewrite H by (simpl; auto). rewrite IH; auto.
  intros; apply H; simpl; auto.
Qed.
Lemma points_of_ok xs ys : List.length xs = List.length ys -> points_of xs ys = Some (combine xs ys).
Proof.
  intros L. unfold points_of. rewrite (all_opt_map _ (fun i => (nth i xs 0, nth i ys 0))).
  - f_equal. revert ys L. induction xs as [|x xs IH]; intros [|y ys] L; try discriminate; auto.
    cbn [List.length seq map combine nth]. f_equal. rewrite <- seq_shift, map_map. apply IH. injection L; auto.
  - intros i I. apply in_seq in I. rewrite !(nth_error_nth' _ 0) by lia. reflexivity.
Qed.
Lemma points_of_short xs ys : (List.length ys < List.length xs)%nat -> points_of xs ys = None.
Proof.
  intros L. unfold points_of. destruct (all_opt _) as [r|] eqn:E; auto. exfalso.
  apply all_opt_some in E. pose proof (f_equal (fun l => nth_error l (List.length ys)) E) as Q. cbv beta in Q.
  rewrite !nth_error_map in Q. rewrite (nth_error_nth' (seq _ _) 0%nat) in Q by (rewrite seq_length; auto).
  rewrite seq_nth in Q by auto. cbn [option_map plus] in Q.
  rewrite (proj2 (nth_error_None ys (List.length ys))) in Q by auto.
  destruct (nth_error xs _); destruct (nth_error r _); discriminate.
Qed.

Lemma multi_loop_ok xss : forall k yss acc, Forall2 (fun a b => List.length a = List.length b) xss yss ->
  exists k', k_canvas k' = k_canvas k /\ k_hist k' = k_hist k /\
    multi_loop k xss yss acc = (k', inr (acc ++ map (fun p => mkRootGraph "" (combine (fst p) (snd p))) (combine xss yss))).
Proof.
  induction xss as [|xs xr IH]; intros k yss acc F; inversion F as [|? ys ? yr L F2]; subst.
  - exists k. cbn. rewrite app_nil_r. auto.
  - cbn [multi_loop]. rewrite (points_of_ok xs ys L). cbn [tl].
    destruct (IH (mkKept (k_canvas k) (k_hist k) (k_graph k ++ [mkRootGraph "" (combine xs ys)])) yr
                (acc ++ [mkRootGraph "" (combine xs ys)]) F2) as (k' & A & B & E).
    exists k'. split; [exact A|]. split; [exact B|]. rewrite E. cbn [combine map fst snd]. rewrite <- app_assoc. reflexivity.
Qed.

(** ---- values of hits and bunches ---- *)
Lemma hit_weight_wt w l : hit_weight w l = wt w l.
Proof. unfold hit_weight, wt. destruct (hit_get w l "weight") as [[x|z|]|]; reflexivity. Qed.

Lemma numbers_some (l : list R) : numbers (map Some l) = inr l.
Proof. unfold numbers. rewrite (proj2 (all_opt_some _ _) eq_refl). reflexivity. Qed.
Lemma numbers_map {A} (f : A -> R) l : numbers (map (fun x => Some (f x)) l) = inr (map f l).
Proof. rewrite <- (map_map f Some). apply numbers_some. Qed.
