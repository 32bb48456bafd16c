(** Proofs about loading bunches. *)
From Coq Require Import Reals ZArith String List Bool Lia Lra Permutation Sorted.
From Verif Require Import Num WeightModel HitcoreModel HitcoreSpec HitcoreProofs PyLibModel HitPyModel HitPySpec HitPyProofs TableModel
  BunchModel BunchSpec BunchProofs BunchNumModel IOModel IOSpec IOProofs IOFileProofs LoadModel LoadSpec.
Import ListNotations.
Open Scope string_scope.
Open Scope list_scope.

Definition fresh (w : RWorld) : Prop := forall l, (w_next w <= l)%nat -> w_hits w l = None.

Lemma load_hits_spec hs : forall (w : RWorld) b, fresh w -> in_step b ->
  exists w' b', load_hits w b hs = (w', b') /\ in_step b' /\
    b_hits b' = b_hits b ++ seq (w_next w) (List.length hs) /\
    cur_ctx w' = cur_ctx w /\ fresh w' /\ (forall l, (l < w_next w)%nat -> w_hits w' l = w_hits w l) /\
    Forall2 (fun l h => w_hits w' l = Some h) (seq (w_next w) (List.length hs)) hs.
Proof.
  induction hs as [|h hs IH]; intros w b F S.
  - exists w, b. cbn. rewrite app_nil_r. repeat split; auto.
  - cbn [load_hits]. unfold load_hit at 1. cbv iota beta.
    set (w1 := mkWorld (fupd (w_hits w) (w_next w) h) (Datatypes.S (w_next w)) (w_store w) (w_cur w)).
    destruct (IH w1 (append b (w_next w))) as (w' & b' & E & S' & B & C & F' & O & G).
    { intros l H. unfold w1. cbn [w_hits]. unfold fupd. destruct (Nat.eqb_spec (w_next w) l); [cbn in H; lia|]. apply F. cbn in H. lia. }
    { apply append_step, S. }
    exists w', b'. split; [exact E|]. split; [exact S'|]. split.
    { rewrite B. unfold append. cbn [b_hits List.length seq]. rewrite <- app_assoc. reflexivity. }
    split; [exact C|]. split; [exact F'|]. split.
    + intros l H. rewrite O by (cbn; lia). unfold w1. cbn [w_hits]. unfold fupd. destruct (Nat.eqb_spec (w_next w) l); [lia|reflexivity].
    + cbn [List.length seq]. constructor; [|exact G]. rewrite O by (cbn; lia). unfold w1. cbn [w_hits]. unfold fupd. rewrite Nat.eqb_refl. reflexivity.
Qed.

Lemma below w l : fresh w -> is_hit w l -> (l < w_next w)%nat.
Proof. intros F H. destruct (Nat.lt_ge_cases l (w_next w)); auto. exfalso. apply H, F. auto. Qed.

Lemma kept w w' : fresh w -> cur_ctx w' = cur_ctx w -> (forall l, (l < w_next w)%nat -> w_hits w' l = w_hits w l) -> hits_kept w w'.
Proof.
  intros F C O l k H. pose proof (O l (below w l F H)) as E. unfold is_hit, hit_get in *. rewrite E, C. auto.
Qed.

Lemma state_get w l (s : PSt) k : In k stored_ints -> has_state w l s -> exists z, hit_get w l k = Some (PInt z) /\ py_get s k = inr (PInt z).
Proof.
  intros K [S1 S2]. destruct s as [h c]. cbn [fst snd] in *. destruct (stored_iname k K) as (i & _ & E).
  exists (h_int h i). rewrite E. split; [|reflexivity]. unfold hit_get. rewrite S1.
  clear - K E. specialize (E (h, cur_ctx w)). simpl in K.
  repeat (destruct K as [<- | K]; [cbn in E; injection E as E; cbn; rewrite E; reflexivity|]). contradiction.
Qed.

Lemma not_special k : In k stored_ints -> k <> "mass" /\ k <> "charge" /\ k <> "energy".
Proof. intros K. simpl in K. repeat (destruct K as [<- | K]; [repeat split; discriminate|]). contradiction. Qed.

(** A variable that the format has is the same in the hit read back, the others are those of a new hit. *)
Lemma value_same fmt w l s s' k z : In k stored_ints -> carried fmt k = true ->
  has_state w l s -> reads_back fmt s s' -> value_is w k z l = Z.eqb (int_reading (snd s') k (fst s')) z.
Proof.
  intros K Ca S (pid & _ & _ & _ & _ & B).
  destruct (state_get w l s k K S) as (y & Y1 & Y2). unfold value_is. rewrite Y1.
  destruct (not_special k K) as (N1 & N2 & N3). specialize (B k (or_intror K) N1 N2 N3). rewrite Ca, Y2 in B.
  unfold int_reading. destruct s' as [h c]. cbn [fst snd]. rewrite B. apply Z.eqb_sym.
Qed.
Lemma value_default fmt s s' k : In k stored_ints -> carried fmt k = false -> reads_back fmt s s' ->
  py_get s' k = inr (PInt 0).
Proof.
  intros K Ca (pid & _ & _ & _ & _ & B).
  destruct (not_special k K) as (N1 & N2 & N3). specialize (B k (or_intror K) N1 N2 N3). rewrite Ca in B. rewrite B.
  clear - K. simpl in K. repeat (destruct K as [<- | K]; [reflexivity|]). contradiction.
Qed.

Lemma reloaded_states fmt w w' c ls hs : reloaded fmt w c ls hs -> forall ls',
  Forall2 (fun l h => has_state w' l (h, c)) ls' hs -> reloaded_at fmt w w' ls ls'.
Proof.
  intros R. induction R as [|l s pid h ls hs S P W B R IH|l pid ls hs P N R IH]; intros ls' G.
  - inversion G. constructor.
  - inversion G as [|l' h' ls1 hs1 E G']. subst. econstructor 2; eauto.
  - econstructor 3; eauto.
Qed.
Lemma reloaded_from fmt w c ls hs : reloaded fmt w c ls hs -> forall h, In h hs ->
  exists l pid, In l ls /\ has_pid w l pid /\ writable fmt pid.
Proof.
  intros R. induction R as [|l s pid h ls hs S P W B R IH|l pid ls hs P N R IH]; intros h' I.
  - destruct I.
  - destruct I as [<- | I]; [exists l, pid; split; [left; auto|auto]|]. destruct (IH h' I) as (l' & pid' & L1 & L2). exists l', pid'. split; [right; auto|auto].
  - destruct (IH h' I) as (l' & pid' & L1 & L2). exists l', pid'. split; [right; auto|auto].
Qed.
Lemma reloaded_to fmt w c ls hs : reloaded fmt w c ls hs -> forall l pid, In l ls -> has_pid w l pid -> writable fmt pid ->
  exists h, In h hs.
Proof.
  intros R. induction R as [|l s pid h ls hs S P W B R IH|l pid ls hs P N R IH]; intros l' pid' I P' W'.
  - destruct I.
  - exists h. left; auto.
  - destruct I as [<- | I].
    + exfalso. apply N. unfold has_pid in *. rewrite P in P'. injection P' as <-. exact W'.
    + destruct (IH l' pid' I P' W') as (h & J). eauto.
Qed.

Lemma state_stored w l (s : PSt) k : stored k -> has_state w l s -> exists v, hit_get w l k = Some v /\ py_get s k = inr v.
Proof.
  intros [K|K] S.
  - destruct (stored_fname k K) as [d ->]. destruct S as [S1 S2]. destruct s as [h c]. cbn [fst snd] in *.
    exists (PFloat (h_dbl h d)). rewrite get_fname. split; [|reflexivity]. unfold hit_get. rewrite S1. destruct d; reflexivity.
  - destruct (state_get w l s k K S) as (z & E1 & E2). eauto.
Qed.

Lemma reading_value w l (s : PSt) k : stored k -> has_state w l s ->
  match hit_get w l k with Some v => int_value v | None => 0%Z end = int_reading (snd s) k (fst s).
Proof.
  intros K S. destruct (state_stored w l s k K S) as (v & E1 & E2). unfold int_reading. rewrite E1.
  destruct s as [h c]. cbn [fst snd]. rewrite E2. destruct v; reflexivity.
Qed.

Lemma fresh_run q : fresh (wrun q).
Proof. intros l H. apply (wf_fresh _ _ (wf_run RNum q)). exact H. Qed.

Lemma filter_states w (c : RCtx) k z ls hs : stored k -> Forall2 (fun l h => has_state w l (h, c)) ls hs ->
  Forall2 (fun l h => has_state w l (h, c))
    (filter (fun l => Z.eqb (match hit_get w l k with Some v => int_value v | None => 0%Z end) z) ls)
    (filter (fun h => Z.eqb (int_reading c k h) z) hs).
Proof.
  intros K F. induction F as [|l h ls hs S F IH]; cbn [filter]; [constructor|].
  rewrite (reading_value w l (h, c) k K S). cbn [fst snd]. destruct (Z.eqb _ z); auto.
Qed.
