(** C83: common.substitute. *)
From Coq Require Import ZArith String List Bool Lia Permutation Ascii.
From Verif Require Import SubstModel SubstSpec SubstProofs.
Import ListNotations.
Open Scope list_scope.

(** The output file is the input file with the words of the dictionary replaced one after the other, in
    the order of the dictionary, everywhere in the text; no other file changes.  The words must not
    be empty nor contain a newline; the text has no carriage returns. *)
Theorem C83_replaced fs fin fout d t :
  fs fin = Some t -> fin <> fout -> ~ In 13%Z t ->
  (forall k v, In (k, v) d -> k <> [] /\ ~ In 10%Z k) ->
  exists fs' u, substitute fs fin fout d = Some fs' /\ fs' fout = Some u /\ replaced_all d t u /\
    (forall u', replaced_all d t u' -> u' = u) /\
    forall g, g <> fout -> fs' g = fs g.
Proof.
  intros H Hne Hcr Hd.
  assert (F : Forall (fun kv => key_ok (fst kv)) d).
  { apply Forall_forall. intros [k v] Hk. apply (Hd k v Hk). }
  assert (F' : Forall (fun kv => fst kv <> []) d).
  { eapply Forall_impl; [|exact F]. intros kv K. apply K. }
  destruct (substitute_eq fs fin fout d t H Hne) as (fs' & E & Eo & Eg).
  rewrite universal_id, switch_lines in Eo by assumption.
  exists fs', (switch_line d t). split; [exact E|]. split; [exact Eo|].
  split; [apply switch_replaced, F'|]. split; [|exact Eg].
  intros u' Hu'. apply replaced_all_unique; assumption.
Qed.

(** Templates: if all words begin with a mark that occurs nowhere else, not in the values either, and
    none is the beginning of another, every word is replaced by its value, and the order of the
    dictionary does not matter. *)
Theorem C83_template fs fin fout c K d toks val :
  fs fin = Some (written toks) -> fin <> fout -> ~ In 13%Z (written toks) ->
  Forall (marked c) K -> prefix_free K ->
  NoDup (map fst d) -> (forall k v, In (k, v) d -> In k K /\ ~ In c v /\ val k = v) ->
  (forall k, ~ In k (map fst d) -> val k = k) ->
  (forall p, In (Plain p) toks -> ~ In c p) -> (forall w, In (Word w) toks -> In w K) ->
  exists fs', substitute fs fin fout d = Some fs' /\ fs' fout = Some (filled val toks).
Proof.
  intros H Hne Hcr FM PF ND Hd Hv HP HW.
  destruct (substitute_eq fs fin fout d _ H Hne) as (fs' & E & Eo & _).
  exists fs'. split; [exact E|]. rewrite Eo, universal_id by assumption.
  assert (F : Forall (fun kv => In (fst kv) K /\ ~ In c (snd kv)) d).
  { apply Forall_forall. intros [k v] Hk. destruct (Hd k v Hk) as (H1 & H2 & _). auto. }
  rewrite switch_lines.
  - rewrite (template_all c K d FM PF ND F toks HP HW). f_equal. unfold filled. f_equal. apply map_ext.
    intros [p|w]; auto. unfold val_of. destruct (find _ d) as [[k v]|] eqn:Ef.
    + apply find_some in Ef. destruct Ef as [Ei Ew]. simpl in Ew.
      destruct (list_eq_dec Z.eq_dec k w) as [-> | ]; [|discriminate]. simpl. symmetry. apply (Hd _ _ Ei).
    + symmetry. apply Hv. intros Hi. apply in_map_iff in Hi. destruct Hi as ([k v] & <- & Hi).
      apply (find_none _ _ Ef) in Hi. simpl in Hi. destruct (list_eq_dec Z.eq_dec k k); congruence.
  - apply Forall_forall. intros [k v] Hk. destruct (Hd k v Hk) as (H1 & _).
    rewrite Forall_forall in FM. destruct (FM k H1) as (b & Eb & _ & Hn). simpl. split; [subst; discriminate|exact Hn].
Qed.

(** A text without the words is copied. *)
Theorem C83_copy fs fin fout d t :
  fs fin = Some t -> fin <> fout -> ~ In 13%Z t ->
  (forall k v, In (k, v) d -> k <> [] /\ ~ In 10%Z k /\ forall i, ~ at_pos k t i) ->
  exists fs', substitute fs fin fout d = Some fs' /\ fs' fout = Some t.
Proof.
  intros H Hne Hcr Hd.
  destruct (C83_replaced fs fin fout d t H Hne Hcr) as (fs' & u & E & Eo & _ & U & _).
  { intros k v Hk. destruct (Hd k v Hk) as (H1 & H2 & _). auto. }
  exists fs'. split; [exact E|]. rewrite Eo. f_equal. symmetry. apply U.
  clear - Hd. induction d as [|[k v] d IH]; [constructor|].
  econstructor; [apply rep_none, (Hd k v); left; reflexivity|].
  apply IH. intros k' v' Hk. apply (Hd k' v'). right. exact Hk.
Qed.

(** A missing input file raises and leaves all files as they are. *)
Theorem C83_missing fs fin fout d : fs fin = None -> substitute fs fin fout d = None.
Proof. unfold substitute. intros ->. reflexivity. Qed.

(** A file cannot be changed in place: it is emptied, whatever it contained. *)
Theorem C83_in_place_refuted fs f d t : fs f = Some t ->
  exists fs', substitute fs f f d = Some fs' /\ fs' f = Some [].
Proof.
  intros H. unfold substitute. rewrite H, put_same. simpl. eexists. split; [reflexivity|]. apply put_same.
Qed.

(** A word with a newline inside is never replaced. *)
Theorem C83_newline_refuted fs fin fout a b v t :
  fs fin = Some t -> fin <> fout -> ~ In 13%Z t -> b <> [] ->
  exists fs', substitute fs fin fout [(a ++ [10%Z] ++ b, v)] = Some fs' /\ fs' fout = Some t.
Proof.
  intros H Hne Hcr Hb. destruct (substitute_eq fs fin fout [(a ++ [10%Z] ++ b, v)] t H Hne) as (fs' & E & Eo & _).
  exists fs'. split; [exact E|]. rewrite Eo, universal_id by assumption. f_equal.
  rewrite <- (concat_lines t) at 2. f_equal.
  rewrite <- (map_id (lines t)) at 2. apply map_ext_in. intros l Hl.
  assert (Hk : a ++ [10%Z] ++ b <> []) by (destruct a; discriminate).
  unfold switch_line. simpl fold_left. rewrite replace_eq by exact Hk.
  symmetry. apply replaced_unique; [exact Hk|]. constructor. intros i (r & A).
  assert (El : l = firstn i l ++ a ++ [10%Z] ++ b ++ r).
  { rewrite <- (firstn_skipn i l) at 1. rewrite A, <- !app_assoc. reflexivity. }
  destruct (lines_shape t) as (ls & e & Es & L & He). rewrite Es in Hl. apply in_app_or in Hl.
  destruct Hl as [Hl|Hl].
  - rewrite Forall_forall in L. destruct (L l Hl) as (q & Eq & Hq).
    destruct (exists_last (l := b ++ r)) as (m & x & Em); [destruct b; [congruence|discriminate]|].
    rewrite Em, Eq in El. rewrite !app_assoc in El. apply app_inj_tail in El. destruct El as [El _].
    apply Hq. rewrite El. apply in_or_app. left. apply in_or_app. right. left. reflexivity.
  - destruct He as [-> | (l' & -> & Hn)]; [destruct Hl|]. destruct Hl as [<- |[]].
    apply Hn. rewrite El. apply in_or_app. right. apply in_or_app. right. left. reflexivity.
Qed.

(** Carriage returns are lost even if there is nothing to replace. *)
Lemma universal_no_cr t : ~ In 13%Z (universal t).
Proof.
  assert (G : forall n t, (List.length t <= n)%nat -> ~ In 13%Z (universal t)).
  { induction n as [|n IH]; intros u L.
    - destruct u; [simpl; tauto|simpl in L; lia].
    - destruct u as [|c u]; [simpl; tauto|]. simpl in L.
      assert (E : universal (c :: u) = universal u \/ universal (c :: u) = (if Z.eqb c 13 then 10%Z else c) :: universal u).
      { destruct c as [|q|q]; try (right; reflexivity).
        do 4 (destruct q as [q|q|]; try (right; reflexivity)).
        destruct u as [|c2 u]; [right; reflexivity|].
        destruct c2 as [|q|q]; try (right; reflexivity).
        do 4 (destruct q as [q|q|]; try (right; reflexivity)). left. reflexivity. }
      destruct E as [-> | ->]; [apply IH; lia|]. intros [E|E]; [|revert E; apply IH; lia].
      destruct (Z.eqb_spec c 13); congruence. }
  apply (G (List.length t)). lia.
Qed.
Theorem C83_carriage_refuted fs fin fout t : fs fin = Some t -> fin <> fout -> In 13%Z t ->
  exists fs' u, substitute fs fin fout [] = Some fs' /\ fs' fout = Some u /\ u <> t.
Proof.
  intros H Hne Hcr. destruct (substitute_eq fs fin fout [] t H Hne) as (fs' & E & Eo & _).
  rewrite switch_lines in Eo by constructor. exists fs', (universal t). split; [exact E|]. split; [exact Eo|].
  intros K. apply (universal_no_cr t). rewrite K. exact Hcr.
Qed.

(** A file with DOS line ends gives the same output as one with Unix line ends. *)
Lemma universal_dos t : ~ In 13%Z t -> universal (dos t) = t.
Proof.
  induction t as [|c t IH]; [reflexivity|]. intros H.
  assert (Hc : c <> 13%Z) by (intros ->; apply H; left; reflexivity).
  assert (IH' : universal (dos t) = t) by (apply IH; intros K; apply H; right; exact K).
  simpl. destruct (Z.eqb_spec c 10) as [-> | Hn]; simpl app.
  - simpl. rewrite IH'. reflexivity.
  - assert (E : forall u, universal (c :: u) = (if Z.eqb c 13 then 10%Z else c) :: universal u).
    { intros u. destruct c as [|q|q]; try reflexivity.
      do 4 (destruct q as [q|q|]; try reflexivity). congruence. }
    rewrite E, IH'. apply Z.eqb_neq in Hc. rewrite Hc. reflexivity.
Qed.
Theorem C83_dos fs fin fout d t u : ~ In 13%Z t -> fin <> fout -> fs fin = Some t -> u fin = Some (dos t) ->
  exists fs' u', substitute fs fin fout d = Some fs' /\ substitute u fin fout d = Some u' /\ u' fout = fs' fout.
Proof.
  intros Hcr Hne H Hu.
  destruct (substitute_eq fs fin fout d t H Hne) as (fs' & E & Eo & _).
  destruct (substitute_eq u fin fout d (dos t) Hu Hne) as (u' & E2 & Eo2 & _).
  exists fs', u'. split; [exact E|]. split; [exact E2|].
  rewrite Eo, Eo2, universal_dos, universal_id by assumption. reflexivity.
Qed.

(** An empty word puts its value around every character of a line. *)
Theorem C83_empty fs fin fout v t : fs fin = Some t -> fin <> fout -> ~ In 13%Z t -> ~ In 10%Z t -> t <> [] ->
  exists fs', substitute fs fin fout [([], v)] = Some fs' /\ fs' fout = Some (v ++ flat_map (fun c => c :: v) t).
Proof.
  intros H Hne Hcr Hn Ht. destruct (substitute_eq fs fin fout [([], v)] t H Hne) as (fs' & E & Eo & _).
  exists fs'. split; [exact E|]. rewrite Eo, universal_id by assumption. f_equal.
  assert (L : lines t = [t]).
  { clear - Hn Ht. induction t as [|c t IH]; [congruence|]. simpl.
    destruct (Z.eqb_spec c 10) as [-> | _]; [exfalso; apply Hn; left; reflexivity|].
    destruct t as [|c' t]; [reflexivity|]. rewrite IH; [reflexivity|intros K; apply Hn; right; exact K|discriminate]. }
  rewrite L. simpl. rewrite app_nil_r. reflexivity.
Qed.

(** Cases. *)
Definition txt (s : string) : list Z := map (fun c => Z.of_nat (nat_of_ascii c)) (list_ascii_of_string s).
Definition fs83 (s : string) : Files := fun f => if Nat.eqb f 0 then Some (txt s) else None.
Definition out83 (s : string) (d : list (string * string)) : option (list Z) :=
  match substitute (fs83 s) 0 1 (map (fun kv => (txt (fst kv), txt (snd kv))) d) with
  | Some fs => fs 1%nat
  | None => None
  end.

Open Scope string_scope.
Example C83_case : out83 "E=$energy; p=$p
$energy" [("$energy", "226"); ("$p", "200")] = Some (txt "E=226; p=200
226").
Proof. vm_compute. reflexivity. Qed.
Example C83_template_case :
  Forall (marked 36) [txt "$energy"; txt "$p"] /\ prefix_free [txt "$energy"; txt "$p"] /\
  written [Plain (txt "E="); Word (txt "$energy"); Plain (txt "; p="); Word (txt "$p")] = txt "E=$energy; p=$p".
Proof.
  split; [|split; [|vm_compute; reflexivity]].
  - constructor; [|constructor; [|constructor]].
    + exists (txt "energy"). split; [vm_compute; reflexivity|]. split; vm_compute; intuition discriminate.
    + exists (txt "p"). split; [vm_compute; reflexivity|]. split; vm_compute; intuition discriminate.
  - intros k1 k2 r [<- |[<- |[]]] [<- |[<- |[]]] E; try reflexivity; vm_compute in E; discriminate.
Qed.

(** Values are replaced again, so that the replacement is not one of all words at the same time; and a
    word that begins another takes precedence if it comes first. *)
Theorem C83_simultaneous_refuted :
  out83 "a b" [("a", "b"); ("b", "c")] = Some (txt "c c") /\
  out83 "a b" [("b", "c"); ("a", "b")] = Some (txt "b c") /\
  out83 "$energy" [("$e", "1"); ("$energy", "2")] = Some (txt "1nergy") /\
  out83 "$energy" [("$energy", "2"); ("$e", "1")] = Some (txt "2").
Proof. repeat split; vm_compute; reflexivity. Qed.

Print Assumptions C83_replaced.
Print Assumptions C83_template.
Print Assumptions C83_copy.
Print Assumptions C83_missing.
Print Assumptions C83_in_place_refuted.
Print Assumptions C83_newline_refuted.
Print Assumptions C83_carriage_refuted.
Print Assumptions C83_dos.
Print Assumptions C83_empty.
Print Assumptions C83_simultaneous_refuted.
