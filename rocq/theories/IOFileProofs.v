(** Whole files: what the writer produces and what the reader makes of it. *)
From Coq Require Import Reals ZArith List Bool String Ascii Lra Lia Permutation Sorted.
From Verif Require Import Num WeightModel HitcoreModel HitcoreSpec HitcoreProofs PyLibModel
  PyLibProofs HitPyModel HitPySpec HitPyProofs TableModel BunchModel BunchNumModel StatProofs
  IOModel IOSpec IOProofs.
Import ListNotations.
Open Scope string_scope.
Open Scope list_scope.
Open Scope R_scope.

(** ---- whole files ---- *)
Lemma station_get (w : RWorld) l h : w_hits w l = Some h ->
  hit_get w l "station" = Some (PInt (h_int h Istation)).
Proof. intros E. unfold hit_get. rewrite E. reflexivity. Qed.
Lemma pid_get (w : RWorld) l h : w_hits w l = Some h -> has_pid w l (h_int h Ipid).
Proof. intros E. unfold has_pid, hit_get. rewrite E. reflexivity. Qed.

Lemma station_order (w : RWorld) : weak_order (fun a b => Z.ltb (station w a) (station w b)).
Proof.
  split; intros.
  - apply Z.ltb_irrefl.
  - apply Z.ltb_lt in H. apply Z.ltb_ge. lia.
  - apply Z.ltb_ge in H, H0. apply Z.ltb_ge. lia.
Qed.

Lemma sort_by_station (w : RWorld) ls :
  by_station w ls (sort (fun a b => Z.ltb (station w a) (station w b)) ls).
Proof.
  set (lt := fun a b => Z.ltb (station w a) (station w b)). split; [|split].
  - intros a b l1 l2 l3 y z E Ha Hb.
    pose proof (sort_sorted lt (station_order w) ls) as S. rewrite E in S. clear E.
    induction l1 as [|k l1 IH]; cbn [app] in S; inversion S; subst.
    + rewrite Forall_forall in H2. specialize (H2 b ltac:(apply in_or_app; right; left; reflexivity)).
      unfold le, lt, station in H2. unfold in_station in *. rewrite Ha, Hb in H2.
      apply Z.ltb_ge in H2. exact H2.
    + auto.
  - intros z. apply sort_stable. intros x y. unfold station_is, lt, station.
    destruct (hit_get w x "station") as [[a| |]|]; try discriminate.
    destruct (hit_get w y "station") as [[b| |]|]; try discriminate.
    rewrite !Z.eqb_eq. intros -> ->. apply Z.ltb_irrefl.
  - intros l. apply sort_in.
Qed.

Lemma lines_written fmt (w : RWorld) ls : In fmt text_formats -> ints_ok w ->
  (forall l, In l ls -> is_hit w l) ->
  written fmt w ls (flat_map (lines_at fmt w) ls).
Proof.
  intros F W. induction ls as [|l r IH]; intros H; [constructor|]. cbn [flat_map].
  specialize (IH (fun k Hk => H k (or_intror Hk))).
  pose proof (H l (or_introl eq_refl)) as Hl. unfold is_hit in Hl.
  unfold lines_at at 1. unfold write_at.
  destruct (w_hits w l) as [h|] eqn:E; [|congruence].
  destruct (writable_dec fmt (h_int h Ipid) F) as [I|I].
  - destruct (write_then_read fmt h (cur_ctx w) (cur_ctx w) F (fun i => W l h i E) I)
      as (ts & h2 & h' & E1 & E2 & E3 & _).
    rewrite E1. cbn [snd app].
    apply (written_line fmt w l (h, cur_ctx w) (h_int h Ipid)); auto.
    + split; auto.
    + apply pid_get; auto.
  - rewrite (write_hit_none fmt h (cur_ctx w) F I). cbn [snd app].
    apply (written_skip fmt w l (h_int h Ipid)); auto. apply pid_get; auto.
Qed.

Lemma lines_reloaded fmt (w : RWorld) (c : RCtx) ls : In fmt text_formats -> ints_ok w ->
  (forall l, In l ls -> is_hit w l) ->
  (forall k, In k (flat_map (lines_at fmt w) ls) -> ~ fails (read_hit fmt c (tokens k))) /\
  reloaded fmt w c ls (hits_in (read_hit fmt c) (fun _ => true) (flat_map (lines_at fmt w) ls)).
Proof.
  intros F W. induction ls as [|l r IH]; intros H; [split; [contradiction|constructor]|].
  cbn [flat_map]. specialize (IH (fun k Hk => H k (or_intror Hk))). destruct IH as [IH1 IH2].
  pose proof (H l (or_introl eq_refl)) as Hl. unfold is_hit in Hl.
  unfold lines_at at 1 3. unfold write_at.
  destruct (w_hits w l) as [h|] eqn:E; [|congruence].
  destruct (writable_dec fmt (h_int h Ipid) F) as [I|I].
  - destruct (write_then_read fmt h (cur_ctx w) c F (fun i => W l h i E) I)
      as (ts & h2 & h' & E1 & E2 & E3 & E4 & E5).
    rewrite E1. cbn [snd app]. split.
    + intros k [<-|Hk]; auto. cbn [tokens]. rewrite E4. intros [e D]. discriminate.
    + unfold hits_in. cbn [flat_map tokens]. rewrite E4. cbn [hit_of filter app].
      apply (reloaded_hit fmt w c l (h, cur_ctx w) (h_int h Ipid)); auto.
      * split; auto.
      * apply pid_get; auto.
      * apply restored_back; auto.
  - rewrite (write_hit_none fmt h (cur_ctx w) F I). cbn [snd app]. split; auto.
    apply (reloaded_skip fmt w c l (h_int h Ipid)); auto. apply pid_get; auto.
Qed.

Lemma forall2_len {A B} (P : A -> B -> Prop) a b : Forall2 P a b -> List.length a = List.length b.
Proof. induction 1; simpl; congruence. Qed.

Lemma written_comment fmt (w : RWorld) ls out : In fmt text_formats -> written fmt w ls out ->
  filter (fun l => negb (is_comment l)) out = out.
Proof.
  intros F H. induction H; auto. cbn [filter is_comment].
  assert (N : Nat.eqb (List.length ts) 0 = false).
  { apply forall2_len in H2. rewrite <- H2. each_format F; reflexivity. }
  rewrite N. cbn [negb]. congruence.
Qed.

Lemma skipn_exact {A} n (a b : list A) : List.length a = n -> skipn n (a ++ b) = b.
Proof. intros <-. rewrite skipn_app, skipn_all, Nat.sub_diag. reflexivity. Qed.

Lemma written_file fmt (w : RWorld) ls comment : In fmt text_formats -> ints_ok w ->
  (forall l, In l ls -> is_hit w l) ->
  exists hdr sorted w',
    let out := flat_map (lines_at fmt w) sorted in
    write_list "mm" fmt w ls comment = (w', inr (map LText hdr ++ out)) /\
    weq w w' /\ by_station w ls sorted /\ (forall l, In l sorted -> is_hit w l) /\
    (has_newline (the_comment comment) = false -> data_lines fmt (map LText hdr ++ out) = out).
Proof.
  intros F W H.
  destruct (format_facts fmt F) as (_ & _ & _ & _ & _ & F6 & _).
  set (sorted := sort (fun a b => Z.ltb (station w a) (station w b)) ls).
  assert (B : by_station w ls sorted) by apply sort_by_station.
  assert (HS : forall l, In l sorted -> is_hit w l).
  { intros l Hl. apply H, B, Hl. }
  destruct (write_loop_spec fmt sorted F w w None [] W (weq_refl w) HS) as (w' & E1 & Q).
  assert (HH : exists hdr, file_header fmt comment = Some hdr).
  { each_format F; eexists; reflexivity. }
  destruct HH as [hdr HH].
  exists (lines_of hdr), sorted, w'. cbn zeta. split; [|split; [|split; [|split]]]; auto.
  - unfold write_list. rewrite F6, HH. fold sorted. cbn [negb]. rewrite E1. reflexivity.
  - intros C. destruct (header_spec fmt comment F C) as (hdr' & HH' & D1 & D2).
    rewrite HH in HH'. injection HH' as <-.
    pose proof (written_comment fmt w sorted _ F (lines_written fmt w sorted F W HS)) as WC.
    assert (FC : is_g4bl fmt = true -> filter (fun l => negb (is_comment l)) (map LText (lines_of hdr)) = []).
    { intros G. destruct (D2 G) as [_ D3]. revert D3. clear. induction (lines_of hdr) as [|s r IH]; intros D; auto.
      cbn [map filter]. rewrite <- comment_same, (D s (or_introl eq_refl)). cbn [negb]. apply IH.
      intros k Hk. apply D. right; auto. }
    each_format F; unfold data_lines; cbn [String.eqb Ascii.eqb Bool.eqb].
    + apply skipn_exact. rewrite map_length. specialize (D1 eq_refl). injection D1 as <-. reflexivity.
    + apply skipn_exact. rewrite map_length. specialize (D1 eq_refl). injection D1 as <-. reflexivity.
    + rewrite filter_app, WC, FC by reflexivity. reflexivity.
    + rewrite filter_app, WC, FC by reflexivity. reflexivity.
    + specialize (D1 eq_refl). injection D1 as D1. destruct (lines_of hdr); [reflexivity|discriminate].
Qed.
