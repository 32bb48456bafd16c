(** Lemmas about the file converter. *)
From Coq Require Import Reals ZArith NArith String Ascii List Bool Lia Lra.
From Verif Require Import Num WeightModel HitcoreModel HitcoreSpec PyLibModel BunchModel HitPyModel HitPySpec TableModel
  MomentModel BunchNumModel MomentSpec IOModel LoadModel UserIOModel EllipseModel TransformModel
  ConvertModel ConvertSpec.
Import ListNotations.
Open Scope string_scope.
Open Scope list_scope.

(** ---- text ---- *)


Lemma strip_hash l r : before "#" (l ++ String "#" r)%string = before "#" l.
Proof.
  induction l as [|a l IH]; [reflexivity|]. cbn [String.append before].
  destruct (Ascii.eqb_spec a "#"); [reflexivity|]. f_equal. exact IH.
Qed.

Lemma strip_bang l r : before "!" (before "#" (l ++ String "!" r)%string) = before "!" (before "#" l).
Proof.
  induction l as [|a l IH]; [reflexivity|]. cbn [String.append before].
  destruct (Ascii.eqb_spec a "#"); [reflexivity|]. cbn [before].
  destruct (Ascii.eqb_spec a "!"); [reflexivity|]. f_equal. exact IH.
Qed.

Lemma comment_words l c r : In c ["#"; "!"]%char -> line_words (l ++ String c r)%string = line_words l.
Proof.
  intros [<-|[<-|[]]]; unfold line_words; [rewrite strip_hash|rewrite strip_bang]; reflexivity.
Qed.

Lemma blank_space a : blank a -> is_space a = true /\ a <> "#"%char /\ a <> "!"%char.
Proof. intros [<-|[<-|[<-|[<-|[]]]]]; split; try reflexivity; split; discriminate. Qed.

Lemma printed_char a : printed a -> is_space a = false /\ a <> "#"%char /\ a <> "!"%char.
Proof.
  intros [H N]. split; [|split; auto].
  - unfold is_space. cbv zeta.
    destruct (N.leb_spec 9 (N_of_ascii a)), (N.leb_spec (N_of_ascii a) 13), (N.leb_spec 28 (N_of_ascii a)),
      (N.leb_spec (N_of_ascii a) 32); try reflexivity; lia.
  - intros ->. cbn in H. lia.
Qed.

Lemma before_skip c s r : every (fun a => a <> c) s -> before c (s ++ r)%string = (s ++ before c r)%string.
Proof.
  induction s as [|a s IH]; intros H; [reflexivity|]. destruct H as [N H]. cbn [String.append before].
  destruct (Ascii.eqb_spec a c); [congruence|]. rewrite IH; auto.
Qed.

Lemma every_weaken (P Q : ascii -> Prop) s : (forall a, P a -> Q a) -> every P s -> every Q s.
Proof. intros PQ. induction s as [|a s IH]; cbn [every]; auto. intros [A B]. auto. Qed.

Lemma strip_skip s r : every (fun a => a <> "#"%char /\ a <> "!"%char) s ->
  before "!" (before "#" (s ++ r)%string) = (s ++ before "!" (before "#" r))%string.
Proof.
  intros H. rewrite before_skip, before_skip; auto; eapply every_weaken; try exact H; cbv beta; tauto.
Qed.

Lemma split_blanks b r : every blank b -> split_from "" (b ++ r)%string = split_from "" r.
Proof.
  induction b as [|a b IH]; intros H; [reflexivity|]. destruct H as [A H]. cbn [String.append split_from].
  destruct (blank_space a A) as (S & _). rewrite S. exact (IH H).
Qed.

Lemma append_assoc (a b c : string) : ((a ++ b) ++ c)%string = (a ++ b ++ c)%string.
Proof. induction a as [|x a IH]; [reflexivity|]. cbn [String.append]. rewrite IH. reflexivity. Qed.
Lemma append_nil (a : string) : (a ++ "")%string = a.
Proof. induction a as [|x a IH]; [reflexivity|]. cbn [String.append]. rewrite IH. reflexivity. Qed.

Lemma split_word s : forall cur r, every printed s -> split_from cur (s ++ r)%string = split_from (cur ++ s)%string r.
Proof.
  induction s as [|a s IH]; intros cur r H; [rewrite append_nil; reflexivity|]. destruct H as [A H].
  cbn [String.append split_from]. destruct (printed_char a A) as (S & _). rewrite S, IH by auto.
  rewrite append_assoc. reflexivity.
Qed.

Lemma end_word_of s : s <> "" -> end_word s = [s].
Proof. intros N. unfold end_word. destruct (String.eqb_spec s ""); congruence. Qed.

Lemma holds_words ws l : holds ws l -> line_words l = ws.
Proof.
  assert (HB : forall b, every blank b -> every (fun a => a <> "#"%char /\ a <> "!"%char) b).
  { intros b. apply every_weaken. intros a A. apply blank_space; auto. }
  assert (HP : forall b, every printed b -> every (fun a => a <> "#"%char /\ a <> "!"%char) b).
  { intros b. apply every_weaken. intros a A. apply printed_char; auto. }
  unfold line_words. induction 1 as [b B|b s B N P|b s c ws r B N P C H IH].
  - rewrite <- (append_nil b), strip_skip by auto. rewrite split_blanks; auto.
  - rewrite strip_skip by auto. rewrite <- (append_nil s) at 1. rewrite strip_skip by auto.
    rewrite split_blanks, split_word by auto. cbn [before split_from String.append]. apply end_word_of; auto.
  - rewrite strip_skip, strip_skip by auto. rewrite split_blanks, split_word by auto.
    change (String c r) with (String c "" ++ r)%string. rewrite strip_skip.
    2:{ cbn [every]. split; auto. apply blank_space; auto. }
    cbn [String.append split_from]. destruct (blank_space c C) as (S & _). rewrite S, end_word_of, IH by auto. reflexivity.
Qed.

Lemma read_control_app a b : read_control (a ++ b) = read_control a ++ read_control b.
Proof. unfold read_control. rewrite map_app, filter_app. reflexivity. Qed.

(** ---- loops over lines ---- *)

Lemma over_app {A} (f : A -> list string -> CErr + A) a l1 l2 :
  over f a (l1 ++ l2) = cbind (over f a l1) (fun a' => over f a' l2).
Proof.
  revert a. induction l1 as [|l l1 IH]; intros a; [reflexivity|]. cbn [over app].
  destruct (f a l); cbn [cbind]; auto.
Qed.

Lemma lines_with_cons k l ls : lines_with k (l :: ls) = if is_key k l then l :: lines_with k ls else lines_with k ls.
Proof. reflexivity. Qed.

Lemma over_filter {A} k (f : A -> list string -> CErr + A) ls : forall a,
  (forall a l, is_key k l = false -> f a l = inr a) -> over f a ls = over f a (lines_with k ls).
Proof.
  induction ls as [|l ls IH]; intros a H; [reflexivity|]. rewrite lines_with_cons. cbn [over].
  destruct (is_key k l) eqn:E.
  - cbn [over]. destruct (f a l); cbn [cbind]; auto.
  - rewrite H by auto. cbn [cbind]. auto.
Qed.

Lemma other_key k k' l : is_key k l = true -> k <> k' -> is_key k' l = false.
Proof.
  destruct l as [|a r]; cbn [is_key]; [discriminate|]. intros E N. apply String.eqb_eq in E. subst a.
  apply String.eqb_neq. exact N.
Qed.

Definition second {A} (_ : A) (l : list string) : CErr + string := word l 1.

(** ---- dicts ---- *)

Definition put_all (d : list (string * R)) (qs : list (string * R)) : list (string * R) :=
  fold_left (fun d q => dset d (fst q) (snd q)) qs d.

Lemma dset_entry d k x v : entry (dset d k x) v = if String.eqb k v then x else entry d v.
Proof.
  induction d as [|[k' y] d IH]; cbn [dset entry]; [reflexivity|].
  destruct (String.eqb_spec k' k) as [->|N]; cbn [entry].
  - destruct (String.eqb k v); reflexivity.
  - rewrite IH. destruct (String.eqb_spec k' v) as [->|N2]; [|reflexivity].
    destruct (String.eqb_spec k v); [congruence|reflexivity].
Qed.

Lemma dset_keys d k x v : In v (map fst (dset d k x)) <-> v = k \/ In v (map fst d).
Proof.
  induction d as [|[k' y] d IH]; cbn [dset map fst In]; [intuition|].
  destruct (String.eqb_spec k' k) as [->|N]; cbn [map fst In]; [intuition|]. rewrite IH. intuition.
Qed.

Lemma dset_nodup d k x : NoDup (map fst d) -> NoDup (map fst (dset d k x)).
Proof.
  induction d as [|[k' y] d IH]; cbn [dset map fst]; intros H; [constructor; auto|].
  inversion H as [|? ? N1 N2]; subst.
  destruct (String.eqb_spec k' k) as [->|N]; cbn [map fst]; constructor; auto.
  rewrite dset_keys. intuition.
Qed.

Lemma put_all_app d a b : put_all d (a ++ b) = put_all (put_all d a) b.
Proof. apply fold_left_app. Qed.

Lemma put_all_nodup qs : forall d, NoDup (map fst d) -> NoDup (map fst (put_all d qs)).
Proof. induction qs as [|q qs IH]; intros d H; [exact H|]. apply IH, dset_nodup, H. Qed.

Lemma put_all_keys qs : forall d v, In v (map fst (put_all d qs)) <-> In v (map fst d) \/ In v (map fst qs).
Proof.
  induction qs as [|q qs IH]; intros d v; cbn [put_all fold_left map fst In]; [intuition|].
  change (fold_left _ qs ?e) with (put_all e qs). rewrite IH, dset_keys. intuition.
Qed.

Lemma put_all_entry qs : forall d v, entry (put_all d qs) v =
  match find (fun q => String.eqb (fst q) v) (rev qs) with Some q => snd q | None => entry d v end.
Proof.
  induction qs as [|q qs IH] using rev_ind; intros d v; [reflexivity|].
  rewrite put_all_app, rev_app_distr. cbn [rev app find put_all fold_left].
  rewrite dset_entry, IH. destruct (String.eqb (fst q) v); reflexivity.
Qed.

Section Loops.
  Variable int : string -> option Z.

  Definition station_of (_ : option Z) (l : list string) : CErr + option Z :=
    s <<- word l 1 ;; z <<- to_int int s ;; inr (Some z).

  Lemma input_split ls : forall f m s f' m' s',
    over (input_line int) (f, m, s) ls = inr (f', m', s') <->
    over second f (lines_with "file_in" ls) = inr f' /\ over second m (lines_with "format_in" ls) = inr m' /\
    over station_of s (lines_with "station_in" ls) = inr s'.
  Proof.
    induction ls as [|l ls IH]; intros f m s f' m' s'.
    - cbn [over lines_with filter]. split; [intros E; inversion E; auto|intros (E1 & E2 & E3); inversion E1; inversion E2; inversion E3; reflexivity].
    - rewrite !lines_with_cons. cbn [over]. unfold input_line at 1.
      destruct (is_key "file_in" l) eqn:K1.
      { rewrite (other_key _ "format_in" _ K1), (other_key _ "station_in" _ K1) by discriminate.
        cbn [over]. unfold second at 1. destruct (word l 1); cbn [cbind fst snd].
        - split; [discriminate|intros (E & _); discriminate].
        - apply IH. }
      destruct (is_key "format_in" l) eqn:K2.
      { rewrite (other_key _ "station_in" _ K2) by discriminate. cbn [cbind over].
        unfold second at 2. destruct (word l 1); cbn [cbind fst snd].
        - split; [discriminate|intros (_ & E & _); discriminate].
        - apply IH. }
      destruct (is_key "station_in" l) eqn:K3; cbn [cbind over]; [|apply IH].
      unfold station_of at 1. destruct (word l 1); cbn [cbind fst snd];
        [split; [discriminate|intros (_ & _ & E); discriminate]|].
      destruct (to_int int s0); cbn [cbind fst snd];
        [split; [discriminate|intros (_ & _ & E); discriminate]|]. apply IH.
  Qed.

End Loops.

Section Loops2.
  Variable flt : string -> option R.

  Lemma output_split ls : forall f m f' m',
    over output_line (f, m) ls = inr (f', m') <->
    over second f (lines_with "file_out" ls) = inr f' /\ over second m (lines_with "format_out" ls) = inr m'.
  Proof.
    induction ls as [|l ls IH]; intros f m f' m'.
    - cbn [over lines_with filter]. split; [intros E; inversion E; auto|intros (E1 & E2); inversion E1; inversion E2; subst; reflexivity].
    - rewrite !lines_with_cons. cbn [over]. unfold output_line at 1.
      destruct (is_key "file_out" l) eqn:K1.
      { rewrite (other_key _ "format_out" _ K1) by discriminate.
        cbn [over]. unfold second at 1. destruct (word l 1); cbn [cbind fst snd].
        - split; [discriminate|intros (E & _); discriminate].
        - apply IH. }
      destruct (is_key "format_out" l) eqn:K2; cbn [cbind over]; [|apply IH].
      unfold second at 2. destruct (word l 1); cbn [cbind fst snd]; [|apply IH].
      split; [discriminate|intros (_ & E); discriminate].
  Qed.

  Definition origin_line (d : list (string * R)) (l : list string) : CErr + list (string * R) :=
    s <<- word l 2 ;; x <<- to_float flt s ;; k <<- word l 1 ;; inr (dset d k x).

  Lemma rotate_split ls : forall ks d ks' d',
    over (rotate_line flt) (ks, d) ls = inr (ks', d') <->
    ks' = ks ++ rotated ls /\ over origin_line d (lines_with "origin" ls) = inr d'.
  Proof.
    unfold rotated. induction ls as [|l ls IH]; intros ks d ks' d'.
    - cbn [over lines_with filter flat_map]. rewrite app_nil_r.
      split; [intros E; inversion E; auto|intros (E1 & E2); inversion E1; inversion E2; subst; reflexivity].
    - rewrite !lines_with_cons. cbn [over]. unfold rotate_line at 1.
      destruct (is_key "rotate" l) eqn:K1.
      { rewrite (other_key _ "origin" _ K1) by discriminate.
        cbn [cbind fst snd flat_map]. rewrite IH, app_assoc. tauto. }
      destruct (is_key "origin" l) eqn:K2; cbn [cbind over fst snd]; [|apply IH].
      unfold origin_line at 1. destruct (word l 2); cbn [cbind]; [split; [discriminate|intros (_ & E); discriminate]|].
      destruct (to_float flt s); cbn [cbind]; [split; [discriminate|intros (_ & E); discriminate]|].
      destruct (word l 1); cbn [cbind]; [split; [discriminate|intros (_ & E); discriminate]|]. apply IH.
  Qed.

  Lemma second_setting ls k d v : over second d (lines_with k ls) = inr v -> setting_of ls k d v.
  Proof.
    unfold setting_of. generalize (lines_with k ls) as fs. intros fs. destruct fs as [|l fs] using rev_ind.
    - cbn [over]. intros E. left. split; congruence.
    - rewrite over_app. destruct (over second d fs); cbn [cbind over]; [discriminate|]. unfold second, word.
      destruct (nth_error l 1) as [s0|] eqn:E; cbn [cbind]; [|discriminate]. intros E'. right. exists fs, l. split; congruence.
  Qed.

  Definition reads_as (p : string * string) (q : string * R) : Prop := fst p = fst q /\ flt (snd p) = Some (snd q).

  Lemma reads_value ps : forall qs v, Forall2 reads_as ps qs ->
    value_of flt ps v (entry (put_all [] qs) v).
  Proof.
    intros qs v F. rewrite put_all_entry. revert qs F.
    induction ps as [|p ps IH] using rev_ind; intros qs F.
    - inversion F; subst. exists None. split; [intros []|reflexivity].
    - apply Forall2_app_inv_l in F. destruct F as (q1 & q2 & F1 & F2 & ->).
      inversion F2 as [|? q ? ? [A B] F3]; subst. inversion F3; subst. rewrite rev_app_distr. cbn [rev app find].
      destruct (String.eqb_spec (fst q) v) as [E|N].
      + exists (Some (snd p)). split; [|exact B]. exists ps, []. split; [|intros []]. destruct p as [a s]. cbn in *. congruence.
      + destruct (IH q1 F1) as (o & O1 & O2). exists o. split; [|exact O2]. destruct o as [s|]; cbn [latest] in *.
        * destruct O1 as (a & b & -> & O1). exists a, (b ++ [p]). rewrite <- app_assoc. split; [reflexivity|].
          rewrite map_app, in_app_iff. cbn. intros [?|[?|[]]]; [auto|congruence].
        * rewrite map_app, in_app_iff. cbn. intros [?|[?|[]]]; [auto|congruence].
  Qed.

  Lemma translate_pairs_spec : forall n ws d d', (List.length ws <= n)%nat -> translate_pairs flt d ws = inr d' ->
    exists qs, Forall2 reads_as (pairs ws) qs /\ d' = put_all d qs.
  Proof.
    induction n as [|n IH]; intros ws d d' L.
    - destruct ws; [|cbn in L; lia]. cbn [translate_pairs]. intros E. exists []. split; [constructor|]. cbn. congruence.
    - destruct ws as [|k [|s r]]; cbn [translate_pairs pairs]; [|discriminate|].
      + intros E. exists []. split; [constructor|]. cbn. congruence.
      + unfold to_float. destruct (flt s) as [x|] eqn:E; cbn [cbind]; [|discriminate]. intros T.
        cbn in L. destruct (IH r (dset d k x) d' ltac:(lia) T) as (qs & Q1 & Q2).
        exists ((k, x) :: qs). split; [constructor; [split; auto|auto]|]. exact Q2.
  Qed.

  Lemma translate_lines_spec ls : forall d d', over (translate_line flt) d ls = inr d' ->
    exists qs, Forall2 reads_as (shifts ls) qs /\ d' = put_all d qs.
  Proof.
    unfold shifts. induction ls as [|l ls IH]; intros d d'.
    - intros E. exists []. split; [apply Forall2_nil|]. inversion E. reflexivity.
    - rewrite lines_with_cons. cbn [over]. unfold translate_line at 1. destruct (is_key "translate" l).
      + cbn [flat_map]. destruct (translate_pairs flt d (tl l)) as [|d1] eqn:T; cbn [cbind]; [discriminate|]. intros E.
        destruct (translate_pairs_spec _ _ _ _ (le_n _) T) as (q1 & A1 & B1). destruct (IH _ _ E) as (q2 & A2 & B2).
        exists (q1 ++ q2). split; [apply Forall2_app; auto|]. rewrite put_all_app. congruence.
      + cbn [cbind]. apply IH.
  Qed.

  Lemma origin_lines_spec ls : forall d d', over origin_line d (lines_with "origin" ls) = inr d' ->
    exists qs, Forall2 reads_as (origins ls) qs /\ d' = put_all d qs.
  Proof.
    unfold origins.
    assert (G : forall fs, Forall (fun l => is_key "origin" l = true) fs -> forall d d', over origin_line d fs = inr d' ->
      exists qs, Forall2 reads_as (flat_map (fun l => pairs (firstn 2 (tl l))) fs) qs /\ d' = put_all d qs).
    { induction 1 as [|l fs K F IH]; intros d d'.
      - intros E. exists []. split; [apply Forall2_nil|]. inversion E. reflexivity.
      - cbn [over flat_map]. unfold origin_line at 1, word. destruct l as [|a [|k [|s r]]]; cbn [nth_error cbind]; try discriminate.
        unfold to_float. destruct (flt s) as [x|] eqn:E; cbn [cbind]; [|discriminate]. intros T.
        destruct (IH _ _ T) as (qs & Q1 & Q2). exists ((k, x) :: qs). cbn [tl firstn pairs app].
        split; [constructor; [split; auto|auto]|exact Q2]. }
    intros d d'. apply G. apply Forall_forall. intros l I. apply filter_In in I. apply I.
  Qed.

  Lemma reads_keys ps qs : Forall2 reads_as ps qs -> forall v, In v (map fst qs) <-> In v (map fst ps).
  Proof.
    induction 1 as [|p q ps qs [A B] F IH]; intros v; [reflexivity|]. cbn [map In]. rewrite IH, A. reflexivity.
  Qed.

  Lemma latest_unique ps v o o' : latest ps v o -> latest ps v o' -> o = o'.
  Proof.
    assert (G : forall p q s p' q' s', ps = p ++ (v, s) :: q -> ~ In v (map fst q) ->
      ps = p' ++ (v, s') :: q' -> ~ In v (map fst q') -> s = s').
    { intros p q s p' q' s' E N E' N'. rewrite E in E'. clear E. apply (f_equal (@rev _)) in E'.
      rewrite !rev_app_distr in E'. cbn [rev] in E'. rewrite <- !app_assoc in E'. cbn [app] in E'.
      assert (M : ~ In v (map fst (rev q))) by (rewrite map_rev, <- in_rev; exact N).
      assert (M' : ~ In v (map fst (rev q'))) by (rewrite map_rev, <- in_rev; exact N').
      revert M M' E'. generalize (rev q) (rev q') (rev p) (rev p'). intros a.
      induction a as [|x a IH]; intros b c d M M' E'; destruct b as [|y b]; cbn [app map In fst] in *.
      - congruence.
      - inversion E'; subst. exfalso. apply M'. left. reflexivity.
      - inversion E'; subst. exfalso. apply M. left. reflexivity.
      - inversion E'; subst. eapply (IH b); eauto. }
    destruct o as [s|], o' as [s'|]; cbn [latest].
    - intros (p & q & E & N) (p' & q' & E' & N'). f_equal. eapply G; eauto.
    - intros (p & q & E & N) N'. exfalso. apply N'. rewrite E, map_app, in_app_iff. right. left. reflexivity.
    - intros N' (p & q & E & N). exfalso. apply N'. rewrite E, map_app, in_app_iff. right. left. reflexivity.
    - reflexivity.
  Qed.

  Lemma value_unique ps v x y : value_of flt ps v x -> value_of flt ps v y -> x = y.
  Proof.
    intros (o & O1 & O2) (o' & P1 & P2). rewrite <- (latest_unique ps v o o' O1 P1) in P2.
    destruct o; congruence.
  Qed.

  Lemma translate_pairs_total : forall n ws d, (List.length ws <= n)%nat -> Nat.even (List.length ws) = true ->
    (forall v s, In (v, s) (pairs ws) -> flt s <> None) -> exists d', translate_pairs flt d ws = inr d'.
  Proof.
    induction n as [|n IH]; intros ws d L E H.
    - destruct ws; [|cbn in L; lia]. exists d. reflexivity.
    - destruct ws as [|k [|s r]]; [exists d; reflexivity|discriminate|]. cbn [translate_pairs pairs] in *.
      unfold to_float. destruct (flt s) as [x|] eqn:X; [|exfalso; eapply H; [left; reflexivity|exact X]].
      cbn [cbind]. apply IH; [cbn in L; lia|exact E|]. intros v s' I. apply (H v s'). right. exact I.
  Qed.

  Lemma translate_total ls :
    (forall l, In l (lines_with "translate" ls) -> Nat.odd (List.length l) = true) ->
    (forall v s, In (v, s) (shifts ls) -> flt s <> None) -> exists d, over (translate_line flt) [] ls = inr d.
  Proof.
    unfold shifts. generalize (@nil (string * R)) as d. induction ls as [|l ls IH]; intros d H1 H2; [exists d; reflexivity|].
    rewrite lines_with_cons in H1, H2. cbn [over]. unfold translate_line at 1. destruct (is_key "translate" l) eqn:K.
    - cbn [flat_map] in H2. destruct (translate_pairs_total _ (tl l) d (le_n _)) as (d1 & D).
      + specialize (H1 l (or_introl eq_refl)). destruct l as [|a l]; [discriminate|]. cbn [tl List.length] in *.
        rewrite Nat.odd_succ in H1. exact H1.
      + intros v s I. apply (H2 v s). apply in_app_iff. left. exact I.
      + rewrite D. cbn [cbind]. apply IH; intros; [apply H1; right; auto|eapply H2; apply in_app_iff; right; eauto].
    - cbn [cbind]. apply IH; auto.
  Qed.

  (** ---- the target matrix ---- *)

  Lemma index_of_spec ks k i : index_of ks k = Some i -> nth_error ks i = Some k.
  Proof.
    revert i. induction ks as [|a ks IH]; intros i; cbn [index_of]; [discriminate|].
    destruct (String.eqb_spec a k) as [->|N]; [intros E; inversion E; reflexivity|].
    destruct (index_of ks k); cbn [option_map]; [|discriminate]. intros E. inversion E. cbn. auto.
  Qed.

  Lemma target_spec ks ls : NoDup ks -> forall m', over (covariance_line flt ks) (fun _ _ => 0%R) ls = inr m' ->
    forall i j a b, nth_error ks i = Some a -> nth_error ks j = Some b -> target_at flt ls a b (m' i j).
  Proof.
    intros ND m' E i j a b A B. revert m' E. rewrite (over_filter "covariance").
    2:{ intros m l K. unfold covariance_line. rewrite K. reflexivity. }
    unfold target_at.
    assert (K : Forall (fun l => is_key "covariance" l = true) (lines_with "covariance" ls)).
    { apply Forall_forall. intros l I. apply filter_In in I. apply I. }
    revert K. generalize (lines_with "covariance" ls) as fs.
    induction fs as [|l fs IH] using rev_ind; intros K m'.
    - cbn [over]. intros E. inversion E. left. split; [intros l []|reflexivity].
    - apply Forall_app in K. destruct K as [K1 K2]. inversion K2 as [|? ? K3 _]; subst.
      rewrite over_app. destruct (over (covariance_line flt ks) (fun _ _ => 0%R) fs) as [|m]; cbn [cbind]; [discriminate|].
      specialize (IH K1 m eq_refl). cbn [over]. unfold covariance_line. rewrite K3.
      unfold word. destruct (nth_error l 1) as [k1|] eqn:N1; cbn [cbind]; [|discriminate].
      destruct (index_of ks k1) as [i1|] eqn:I1; [|discriminate].
      destruct (nth_error l 2) as [k2|] eqn:N2; cbn [cbind]; [|discriminate].
      destruct (index_of ks k2) as [i2|] eqn:I2; [|discriminate].
      destruct (nth_error l 3) as [s|] eqn:N3; cbn [cbind]; [|discriminate].
      unfold to_float. destruct (flt s) as [x|] eqn:X; cbn [cbind]; [|discriminate].
      intros E. inversion E as [E']. clear E E'. apply index_of_spec in I1, I2.
      assert (U : forall p q v, nth_error ks p = Some v -> nth_error ks q = Some v -> p = q).
      { intros p q v P Q. apply (proj1 (NoDup_nth_error ks) ND); [|congruence]. apply nth_error_Some. congruence. }
      assert (D : names a b l \/ ~ names a b l).
      { unfold names. rewrite N1, N2. destruct (string_dec k1 a), (string_dec k2 b), (string_dec k1 b), (string_dec k2 a); subst;
        solve [left; auto | right; intros [[? ?]|[? ?]]; congruence]. }
      destruct D as [D|D].
      + right. exists fs, l, [], s. split; [reflexivity|]. split; [exact D|]. split; [exact N3|]. split; [|intros ? []].
        rewrite X. f_equal. unfold mset. unfold names in D. rewrite N1, N2 in D. destruct D as [[D1 D2]|[D1 D2]];
          inversion D1; inversion D2; subst.
        * rewrite (U i i1 a A I1), (U j i2 b B I2), !Nat.eqb_refl.
          destruct (Nat.eqb i1 i2 && Nat.eqb i2 i1)%bool; reflexivity.
        * rewrite (U i i2 a A I2), (U j i1 b B I1), !Nat.eqb_refl. reflexivity.
      + assert (M : mset (mset m i1 i2 x) i2 i1 x i j = m i j).
        { unfold mset. destruct (Nat.eqb_spec i i2), (Nat.eqb_spec j i1), (Nat.eqb_spec i i1), (Nat.eqb_spec j i2);
            cbn [andb]; try reflexivity; exfalso; apply D; unfold names; subst; rewrite N1, N2; intuition congruence. }
        rewrite M. destruct IH as [[P1 P2]|(p & l' & q & s' & P1 & P2 & P3 & P4 & P5)].
        * left. split; [|exact P2]. intros l' I. apply in_app_iff in I. destruct I as [I|[<-|[]]]; auto.
        * right. exists p, l', (q ++ [l]), s'. rewrite P1, <- app_assoc. split; [reflexivity|]. repeat split; auto.
          intros l2 I. apply in_app_iff in I. destruct I as [I|[<-|[]]]; auto.
  Qed.

  Lemma target_unique ls a b x y : target_at flt ls a b x -> target_at flt ls a b y -> x = y.
  Proof.
    unfold target_at. generalize (lines_with "covariance" ls) as fs. intros fs.
    assert (G : forall (p q p' q' : list (list string)) l l', fs = p ++ l :: q -> names a b l -> (forall m, In m q -> ~ names a b m) ->
      fs = p' ++ l' :: q' -> names a b l' -> (forall m, In m q' -> ~ names a b m) -> l = l').
    { intros p q p' q' l l' E N M E' N' M'. rewrite E in E'. clear E. apply (f_equal (@rev _)) in E'.
      rewrite !rev_app_distr in E'. cbn [rev] in E'. rewrite <- !app_assoc in E'. cbn [app] in E'.
      assert (W : forall m, In m (rev q) -> ~ names a b m) by (intros m I; apply M, in_rev, I).
      assert (W' : forall m, In m (rev q') -> ~ names a b m) by (intros m I; apply M', in_rev, I).
      clear M M'. revert W W' E'. generalize (rev q) (rev q') (rev p) (rev p'). intros c.
      induction c as [|u c IH]; intros d e f W W' E'; destruct d as [|v d]; cbn [app] in E'; inversion E'; subst.
      - reflexivity.
      - exfalso. apply (W' v); [left; reflexivity|assumption].
      - exfalso. apply (W l'); [left; reflexivity|assumption].
      - apply (IH d e f); auto; intros m I; [apply W|apply W']; right; exact I. }
    intros [[P1 P2]|(p & l & q & s & P1 & P2 & P3 & P4 & P5)] [[Q1 Q2]|(p' & l' & q' & s' & Q1 & Q2 & Q3 & Q4 & Q5)].
    - congruence.
    - exfalso. apply (P1 l'); auto. rewrite Q1. apply in_app_iff. right. left. reflexivity.
    - exfalso. apply (Q1 l); auto. rewrite P1. apply in_app_iff. right. left. reflexivity.
    - assert (l = l') by (eapply G; eauto). subst l'. congruence.
  Qed.

  Lemma index_of_total ks k : In k ks -> exists i, index_of ks k = Some i.
  Proof.
    induction ks as [|a ks IH]; intros []; cbn [index_of].
    - subst. rewrite String.eqb_refl. eauto.
    - destruct (IH H) as (i & ->). destruct (String.eqb a k); cbn [option_map]; eauto.
  Qed.

  Lemma target_total ks ls :
    (forall l, In l (lines_with "covariance" ls) -> exists k a c s r, l = k :: a :: c :: s :: r /\ In a ks /\ In c ks /\ flt s <> None) ->
    exists m, over (covariance_line flt ks) (fun _ _ => 0%R) ls = inr m.
  Proof.
    generalize (fun _ _ : nat => 0%R) as m. induction ls as [|l ls IH]; intros m H; [exists m; reflexivity|].
    rewrite lines_with_cons in H. cbn [over]. unfold covariance_line at 1. destruct (is_key "covariance" l).
    - destruct (H l (or_introl eq_refl)) as (k & a & c & s & r & -> & A & C & S). unfold word. cbn [nth_error cbind].
      destruct (index_of_total ks a A) as (i & ->), (index_of_total ks c C) as (j & ->). unfold to_float.
      destruct (flt s) as [x|]; [|congruence]. cbn [cbind]. apply IH. intros l I. apply H. right. exact I.
    - cbn [cbind]. apply IH. exact H.
  Qed.

  Lemma origin_total ls :
    (forall l, In l (lines_with "origin" ls) -> exists k v s r, l = k :: v :: s :: r /\ flt s <> None) ->
    exists d, over origin_line [] (lines_with "origin" ls) = inr d.
  Proof.
    generalize (@nil (string * R)) as d. induction (lines_with "origin" ls) as [|l fs IH]; intros d H; [exists d; reflexivity|].
    destruct (H l (or_introl eq_refl)) as (k & v & s & r & -> & S). cbn [over]. unfold origin_line at 1, word. cbn [nth_error cbind].
    unfold to_float. destruct (flt s) as [x|]; [|congruence]. cbn [cbind]. apply IH. intros l I. apply H. right. exact I.
  Qed.
End Loops2.
