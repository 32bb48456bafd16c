(** Proofs about common.substitute. *)
From Coq Require Import ZArith List Bool Lia Permutation.
From Verif Require Import SubstModel SubstSpec.
Import ListNotations.
Open Scope list_scope.

Lemma starts_iff k : forall s, starts_with k s = true <-> exists r, s = k ++ r.
Proof.
  induction k as [|a k IH]; intros s; simpl.
  - split; eauto.
  - destruct s as [|b s]; [split; [discriminate|intros (r & E); discriminate]|].
    rewrite andb_true_iff, Z.eqb_eq, IH. split.
    + intros [-> (r & ->)]. eauto.
    + intros (r & E). inversion E. eauto.
Qed.

Lemma starts_false k s : starts_with k s = false <-> ~ exists r, s = k ++ r.
Proof. rewrite <- starts_iff. destruct (starts_with k s); split; congruence. Qed.

Lemma skip_all k v r : forall m s, length m = s -> replace_from k v s (m ++ r) = replace_from k v 0 r.
Proof.
  induction m as [|a m IH]; intros s L; simpl in L; subst; [reflexivity|]. simpl. apply IH. reflexivity.
Qed.

Lemma replace_hit k v r : k <> [] -> replace_from k v 0 (k ++ r) = v ++ replace_from k v 0 r.
Proof.
  destruct k as [|a k]; [congruence|]. intros _.
  assert (E : starts_with (a :: k) (a :: k ++ r) = true) by (apply starts_iff; exists r; reflexivity).
  simpl app. simpl replace_from at 1. simpl in E. rewrite E. f_equal. apply skip_all. reflexivity.
Qed.

Lemma replace_miss k v c r : ~ (exists u, c :: r = k ++ u) -> replace_from k v 0 (c :: r) = c :: replace_from k v 0 r.
Proof. intros H. apply starts_false in H. simpl. simpl in H. rewrite H. reflexivity. Qed.

Lemma replace_misses k v p : forall r, (forall i, (i < length p)%nat -> ~ at_pos k (p ++ r) i) ->
  replace_from k v 0 (p ++ r) = p ++ replace_from k v 0 r.
Proof.
  induction p as [|c p IH]; intros r H; [reflexivity|].
  simpl app. rewrite replace_miss.
  - f_equal. apply IH. intros i Hi A. apply (H (S i)); simpl; [lia|exact A].
  - apply (H 0%nat). simpl. lia.
Qed.

(** Every text has a first occurrence or none. *)
Lemma first_occ k (s : Text) :
  (forall i, ~ at_pos k s i) \/
  exists p r, s = p ++ k ++ r /\ forall i, (i < length p)%nat -> ~ at_pos k s i.
Proof.
  induction s as [|c s IH].
  - destruct k as [|a k].
    + right. exists [], []. split; [reflexivity|]. simpl. lia.
    + left. intros i (r & E). rewrite skipn_nil in E. discriminate.
  - destruct (starts_with k (c :: s)) eqn:E.
    + apply starts_iff in E. destruct E as (r & E). right. exists [], r. split; [exact E|]. simpl. lia.
    + apply starts_false in E. destruct IH as [H|(p & r & Hs & H)].
      * left. intros [|i] A; [apply E, A|apply (H i), A].
      * right. exists (c :: p), r. split; [simpl; congruence|].
        intros [|i] Hi A; [apply E, A|]. apply (H i); [simpl in Hi; lia|exact A].
Qed.

Lemma replace_replaced k v : k <> [] -> forall s, replaced k v s (replace_from k v 0 s).
Proof.
  intros Hk.
  assert (G : forall n s, (length s <= n)%nat -> replaced k v s (replace_from k v 0 s)).
  { induction n as [|n IH]; intros s L.
    - destruct s; [|simpl in L; lia]. simpl. constructor. intros i (r & E).
      rewrite skipn_nil in E. destruct k; [congruence|discriminate].
    - destruct (first_occ k s) as [H|(p & r & -> & H)].
      + rewrite <- (app_nil_r s) at 2. rewrite replace_misses by (intros i _; rewrite app_nil_r; apply H).
        simpl. rewrite app_nil_r. constructor. exact H.
      + rewrite replace_misses by exact H. rewrite replace_hit by exact Hk. constructor; [exact H|].
        apply IH. rewrite !app_length in L. destruct k; [congruence|]. simpl in L. lia. }
  intros s. apply (G (length s)). lia.
Qed.

Lemma app_split_eq {A} (p1 : list A) : forall p2 r1 r2, p1 ++ r1 = p2 ++ r2 -> length p1 = length p2 -> p1 = p2 /\ r1 = r2.
Proof.
  induction p1 as [|a p1 IH]; intros [|b p2] r1 r2 E L; try discriminate; [auto|].
  simpl in E, L. inversion E. destruct (IH p2 r1 r2) as [-> ->]; auto.
Qed.

Lemma at_pos_app k (p r : Text) : at_pos k (p ++ k ++ r) (length p).
Proof. exists r. rewrite skipn_app, skipn_all, Nat.sub_diag. reflexivity. Qed.

(** There is only one such text. *)
Lemma replaced_unique k v s t : k <> [] -> replaced k v s t -> t = replace_from k v 0 s.
Proof.
  intros Hk. induction 1 as [s H|p r t H H1 IH].
  - rewrite <- (app_nil_r s) at 2. rewrite replace_misses by (intros i _; rewrite app_nil_r; apply H).
    simpl. rewrite app_nil_r. reflexivity.
  - rewrite replace_misses by exact H. rewrite replace_hit by exact Hk. congruence.
Qed.

(** ---- lines ---- *)
Definition is_line (l : Text) : Prop := exists b, l = b ++ [10%Z] /\ ~ In 10%Z b.

Lemma concat_lines t : concat (lines t) = t.
Proof.
  induction t as [|c t IH]; [reflexivity|]. simpl. destruct (Z.eqb_spec c 10) as [-> | Hc].
  - simpl. rewrite IH. reflexivity.
  - destruct (lines t); simpl in *; rewrite <- IH; reflexivity.
Qed.

(** All lines but the last end with the newline they do not contain otherwise. *)
Lemma lines_shape t : exists ls e, lines t = ls ++ e /\ Forall is_line ls /\
  (e = [] \/ exists l, e = [l] /\ ~ In 10%Z l).
Proof.
  induction t as [|c t (ls & e & E & F & L)]; [exists [], []; simpl; auto|].
  simpl. rewrite E. destruct (Z.eqb_spec c 10) as [-> | Hc].
  - exists ([10%Z] :: ls), e. split; [reflexivity|]. split; auto. constructor; auto. exists []. auto.
  - destruct ls as [|l ls].
    + destruct L as [-> | (l & -> & L)]; simpl.
      * exists [], [[c]]. split; [reflexivity|]. split; auto. right. exists [c]. split; auto. simpl. intuition.
      * exists [], [c :: l]. split; [reflexivity|]. split; auto. right. exists (c :: l). split; auto. simpl. intuition.
    + inversion F as [|? ? (b & -> & Hb) F2]; subst. exists ((c :: b ++ [10%Z]) :: ls), e.
      split; [reflexivity|]. split; auto. constructor; auto. exists (c :: b). split; [reflexivity|]. simpl. intuition.
Qed.

(** A text that ends with a newline stays one, and what comes after does not matter. *)
Lemma prefix_cases {A} (k : list A) : forall s r u, s ++ r = k ++ u ->
  (exists u', s = k ++ u') \/ (exists k', k = s ++ k' /\ k' <> []).
Proof.
  induction k as [|a k IH]; intros s r u E.
  - left. exists s. reflexivity.
  - destruct s as [|b s]; [right; exists (a :: k); split; [reflexivity|discriminate]|].
    simpl in E. inversion E as [[E1 E2]]. subst. destruct (IH s r u E2) as [(u' & ->)|(k' & -> & H)].
    + left. exists u'. reflexivity.
    + right. exists k'. auto.
Qed.

Lemma replace_split k v : k <> [] -> ~ In 10%Z k -> forall b r,
  exists b', replace_from k v 0 (b ++ [10%Z]) = b' ++ [10%Z] /\
    replace_from k v 0 ((b ++ [10%Z]) ++ r) = b' ++ [10%Z] ++ replace_from k v 0 r.
Proof.
  intros Hk Hn.
  assert (G : forall n b r, (length b <= n)%nat ->
    exists b', replace_from k v 0 (b ++ [10%Z]) = b' ++ [10%Z] /\
      replace_from k v 0 ((b ++ [10%Z]) ++ r) = b' ++ [10%Z] ++ replace_from k v 0 r).
  { assert (Z0 : forall r, ~ exists u, 10%Z :: r = k ++ u).
    { intros r (u & E). destruct k as [|a k]; [congruence|]. inversion E. subst. apply Hn. left. reflexivity. }
    induction n as [|n IH]; intros b r L.
    - destruct b; [|simpl in L; lia]. exists []. simpl app. rewrite !replace_miss by apply Z0. auto.
    - destruct b as [|c b]; [exists []; simpl app; rewrite !replace_miss by apply Z0; auto|].
      destruct (starts_with k (c :: b)) eqn:E.
      + apply starts_iff in E. destruct E as (u & E). rewrite E, <- !app_assoc, !replace_hit by exact Hk.
        destruct (IH u r) as (b' & E1 & E2).
        { apply (f_equal (@length Z)) in E. rewrite app_length in E. destruct k; [congruence|]. simpl in *. lia. }
        exists (v ++ b'). rewrite <- app_assoc in E2. rewrite E1, E2, <- !app_assoc. auto.
      + apply starts_false in E.
        assert (M : forall r', ~ exists u, c :: (b ++ [10%Z]) ++ r' = k ++ u).
        { intros r' (u & E1). change (c :: (b ++ [10%Z]) ++ r') with ((c :: b ++ [10%Z]) ++ r') in E1.
          rewrite app_comm_cons, <- app_assoc in E1. destruct (prefix_cases _ _ _ _ E1) as [H|(k' & -> & H)]; auto.
          destruct k' as [|a k']; [congruence|]. rewrite <- app_assoc in E1. apply app_inv_head in E1. inversion E1. subst.
          apply Hn. apply in_or_app. right. left. reflexivity. }
        destruct (IH b r) as (b' & E1 & E2); [simpl in L; lia|].
        exists (c :: b'). simpl app. split.
        * rewrite replace_miss; [congruence|]. specialize (M []). rewrite app_nil_r in M. exact M.
        * rewrite replace_miss; [|apply M]. simpl. simpl in E2. congruence. }
  intros b r. apply (G (length b)). lia.
Qed.

Definition key_ok (k : Text) : Prop := k <> [] /\ ~ In 10%Z k.

Lemma replace_eq k v s : k <> [] -> replace k v s = replace_from k v 0 s.
Proof. destruct k; [congruence|reflexivity]. Qed.

Lemma switch_split d : Forall (fun kv => key_ok (fst kv)) d -> forall b r,
  exists b', switch_line d (b ++ [10%Z]) = b' ++ [10%Z] /\
    switch_line d ((b ++ [10%Z]) ++ r) = b' ++ [10%Z] ++ switch_line d r.
Proof.
  induction d as [|[k v] d IH]; intros F b r.
  - exists b. simpl. rewrite <- app_assoc. auto.
  - inversion F as [|? ? [Hk Hn] F2]; subst. simpl in Hk, Hn. unfold switch_line. simpl fold_left.
    rewrite !replace_eq by exact Hk.
    destruct (replace_split k v Hk Hn b r) as (b' & E1 & E2). rewrite E1, E2.
    destruct (IH F2 b' (replace_from k v 0 r)) as (b'' & E3 & E4). unfold switch_line in E3, E4.
    exists b''. rewrite E3. rewrite <- app_assoc in E4. simpl in E4 |- *. rewrite E4. auto.
Qed.

Lemma switch_nil d : Forall (fun kv => key_ok (fst kv)) d -> switch_line d [] = [].
Proof.
  induction d as [|[k v] d IH]; intros F; [reflexivity|]. inversion F as [|? ? [Hk _] F2]; subst.
  unfold switch_line. simpl fold_left. simpl in Hk. rewrite replace_eq by exact Hk. apply IH, F2.
Qed.

(** Line by line or at once: the same. *)
Lemma switch_lines d t : Forall (fun kv => key_ok (fst kv)) d ->
  concat (map (switch_line d) (lines t)) = switch_line d t.
Proof.
  intros F. rewrite <- (concat_lines t) at 2.
  destruct (lines_shape t) as (ls & e & -> & L & He). clear t.
  induction L as [|l ls (b & -> & Hb) _ IH].
  - simpl. destruct He as [-> | (l & -> & _)]; simpl.
    + symmetry. apply switch_nil, F.
    + rewrite !app_nil_r. reflexivity.
  - simpl. destruct (switch_split d F b (concat (ls ++ e))) as (b' & E1 & E2).
    rewrite E1, E2, IH, <- app_assoc. reflexivity.
Qed.

Lemma switch_replaced d : Forall (fun kv => fst kv <> []) d -> forall s, replaced_all d s (switch_line d s).
Proof.
  induction d as [|[k v] d IH]; intros F s; [constructor|]. inversion F; subst. simpl in *.
  unfold switch_line. simpl fold_left. econstructor; [|apply IH; assumption].
  rewrite replace_eq by assumption. apply replace_replaced. assumption.
Qed.

Lemma replaced_all_unique d : Forall (fun kv => fst kv <> []) d -> forall s t, replaced_all d s t -> t = switch_line d s.
Proof.
  intros F s t H. revert F. induction H as [s|k v d s t u H H1 IH]; intros F; [reflexivity|].
  inversion F; subst. simpl in *. unfold switch_line. simpl fold_left. rewrite replace_eq by assumption.
  rewrite <- (replaced_unique k v s t) by assumption. apply IH. assumption.
Qed.

Lemma universal_id t : ~ In 13%Z t -> universal t = t.
Proof.
  induction t as [|c t IH]; [reflexivity|]. intros H.
  assert (Hc : c <> 13%Z) by (intros ->; apply H; left; reflexivity).
  assert (E : universal (c :: t) = (if Z.eqb c 13 then 10%Z else c) :: universal t).
  { destruct c as [|q|q]; try reflexivity.
    destruct q as [q|q|]; try reflexivity. destruct q as [q|q|]; try reflexivity.
    destruct q as [q|q|]; try reflexivity. destruct q as [q|q|]; try reflexivity. congruence. }
  rewrite E. apply Z.eqb_neq in Hc. rewrite Hc. f_equal. apply IH. intros K. apply H. right. exact K.
Qed.

(** ---- the whole function ---- *)
Lemma put_same fs f t : put fs f t f = Some t.
Proof. unfold put. rewrite Nat.eqb_refl. reflexivity. Qed.
Lemma put_other fs f t g : f <> g -> put fs f t g = fs g.
Proof. intros H. unfold put. apply Nat.eqb_neq in H. rewrite H. reflexivity. Qed.

Lemma substitute_eq fs fin fout d t : fs fin = Some t -> fin <> fout ->
  exists fs', substitute fs fin fout d = Some fs' /\
    fs' fout = Some (concat (map (switch_line d) (lines (universal t)))) /\
    forall g, g <> fout -> fs' g = fs g.
Proof.
  intros H Hne. unfold substitute. rewrite H, put_other by congruence. rewrite H.
  eexists. split; [reflexivity|]. split; [apply put_same|].
  intros g Hg. rewrite !put_other by congruence. reflexivity.
Qed.

(** ---- templates ---- *)
Definition step (k v : Text) (t : Token) : Token :=
  match t with
  | Plain p => Plain p
  | Word w => if list_eq_dec Z.eq_dec w k then Plain v else Word w
  end.

Lemma no_mark_misses c b v s : ~ In c s -> forall r, replace_from (c :: b) v 0 (s ++ r) = s ++ replace_from (c :: b) v 0 r.
Proof.
  intros H r. apply replace_misses. intros i Hi (u & E).
  apply H. rewrite skipn_app in E. destruct (skipn i s) as [|x y] eqn:Ex.
  - apply (f_equal (@length Z)) in Ex. rewrite skipn_length in Ex. simpl in Ex. lia.
  - simpl in E. inversion E. subst. rewrite <- (firstn_skipn i s). apply in_or_app. right. rewrite Ex. left. reflexivity.
Qed.

Lemma template_step c K k v toks : Forall (marked c) K -> prefix_free K -> In k K ->
  (forall p, In (Plain p) toks -> ~ In c p) -> (forall w, In (Word w) toks -> In w K) ->
  replace_from k v 0 (written toks) = written (map (step k v) toks).
Proof.
  intros FM PF Hk. rewrite Forall_forall in FM. destruct (FM k Hk) as (b & Eb & Hb & _).
  unfold written. induction toks as [|t toks IH]; intros HP HW; [reflexivity|]. simpl.
  assert (IH' : replace_from k v 0 (concat (map (fun t => match t with Plain p => p | Word k => k end) toks)) =
                concat (map (fun t => match t with Plain p => p | Word k => k end) (map (step k v) toks))).
  { apply IH; intros; [apply HP|apply HW]; right; assumption. }
  rewrite <- IH'. set (rest := concat _). destruct t as [p|w]; simpl.
  - rewrite Eb. apply no_mark_misses. apply HP. left. reflexivity.
  - destruct (list_eq_dec Z.eq_dec w k) as [-> | Hne]; [apply replace_hit; rewrite Eb; discriminate|].
    assert (Hw : In w K) by (apply HW; left; reflexivity).
    destruct (FM w Hw) as (bw & Ew & Hbw & _). rewrite Ew. simpl app. rewrite replace_miss.
    + f_equal. rewrite Eb. apply no_mark_misses. exact Hbw.
    + intros (u & E). change (c :: bw ++ rest) with ((c :: bw) ++ rest) in E. rewrite <- Ew in E.
      destruct (prefix_cases _ _ _ _ E) as [(u' & E')|(k' & E' & _)].
      * apply Hne. symmetry. apply (PF k w u'); auto.
      * apply Hne. apply (PF w k k'); auto.
Qed.

Definition val_of (d : list (Text * Text)) (k : Text) : Text :=
  match find (fun kv => if list_eq_dec Z.eq_dec (fst kv) k then true else false) d with
  | Some kv => snd kv
  | None => k
  end.

Lemma template_all c K d : Forall (marked c) K -> prefix_free K -> NoDup (map fst d) ->
  Forall (fun kv => In (fst kv) K /\ ~ In c (snd kv)) d -> forall toks,
  (forall p, In (Plain p) toks -> ~ In c p) -> (forall w, In (Word w) toks -> In w K) ->
  switch_line d (written toks) = filled (val_of d) toks.
Proof.
  intros FM PF. induction d as [|[k v] d IH]; intros ND F toks HP HW.
  - reflexivity.
  - inversion F as [|? ? [Hk Hv] F2]; subst. simpl in Hk, Hv. inversion ND as [|? ? ND1 ND2]; subst.
    unfold switch_line. simpl fold_left.
    assert (Hkn : k <> []).
    { rewrite Forall_forall in FM. destruct (FM k Hk) as (b & -> & _). discriminate. }
    rewrite replace_eq by exact Hkn.
    rewrite (template_step c K k v toks FM PF Hk HP HW).
    fold (switch_line d (written (map (step k v) toks))). rewrite IH; auto.
    + unfold filled. f_equal. rewrite map_map. apply map_ext. intros [p|w]; simpl; [reflexivity|].
      unfold val_of. simpl. destruct (list_eq_dec Z.eq_dec w k) as [-> | Hne].
      * destruct (list_eq_dec Z.eq_dec k k); [reflexivity|congruence].
      * destruct (list_eq_dec Z.eq_dec k w); [congruence|reflexivity].
    + intros p Hp. apply in_map_iff in Hp. destruct Hp as ([q|w] & E & Hq); simpl in E.
      * inversion E; subst. apply HP, Hq.
      * destruct (list_eq_dec Z.eq_dec w k); inversion E; subst. exact Hv.
    + intros w Hw. apply in_map_iff in Hw. destruct Hw as ([q|w'] & E & Hq); simpl in E; [discriminate|].
      destruct (list_eq_dec Z.eq_dec w' k); inversion E; subst. apply HW, Hq.
Qed.
