From Coq Require Import Reals ZArith Bool String Ascii List Lia Lra.
From Verif Require Import Num WeightModel HitcoreModel HitcoreSpec HitcoreProofs PyLibModel PyLibProofs HitPyModel HitPySpec HitPyProofs
  TableModel BunchModel BunchNumModel StatProofs IOModel IOSpec IOProofs IOFileProofs TextModel TextSpec.
Import ListNotations.
Open Scope string_scope.
Open Scope list_scope.

Notation "a +++ b" := (String.append a b) (at level 60, right associativity).

Lemma append_nil (a : string) : a +++ "" = a.
Proof. induction a as [|c a IH]; [reflexivity|]. cbn. now rewrite IH. Qed.

Lemma space_blank c r : is_space c = false -> blank_in r = false -> blank_in (String c r) = false.
Proof.
  intros C R. cbn [blank_in]. rewrite R, orb_false_r. unfold is_space in C. set (n := nat_of_ascii c) in *.
  apply orb_false_iff in C. destruct C as [C1 C2]. apply andb_false_iff in C1, C2.
  apply not_true_is_false. intros E. apply existsb_exists in E. destruct E as (k & I & K). apply Nat.eqb_eq in K. subst k.
  cbn [In] in I. destruct C1 as [C1|C1]; apply Nat.leb_gt in C1; destruct C2 as [C2|C2]; apply Nat.leb_gt in C2; lia.
Qed.
Lemma blank_space c r : blank_in (String c r) = false -> is_space c = false /\ blank_in r = false.
Proof.
  cbn [blank_in]. intros H. apply orb_false_iff in H. destruct H as [H R]. split; [|exact R].
  unfold is_space. set (n := nat_of_ascii c) in *. apply not_true_is_false. intros E. apply orb_true_iff in E.
  assert (K : In n [9; 10; 11; 12; 13; 28; 29; 30; 31; 32]%nat).
  { cbn [In]. destruct E as [E|E]; apply andb_true_iff in E; destruct E as [E1 E2]; apply Nat.leb_le in E1, E2; lia. }
  assert (existsb (fun k => Nat.eqb n k) [9; 10; 11; 12; 13; 28; 29; 30; 31; 32]%nat = true).
  { apply existsb_exists. exists n. split; [exact K|apply Nat.eqb_refl]. }
  congruence.
Qed.
Lemma newline_app a b : has_newline (a +++ b) = (has_newline a || has_newline b)%bool.
Proof. induction a as [|c a IH]; [reflexivity|]. cbn. rewrite IH. now rewrite orb_assoc. Qed.
Lemma blank_newline s : blank_in s = false -> has_newline s = false.
Proof.
  induction s as [|c s IH]; [reflexivity|]. intros B. apply blank_space in B. destruct B as [C B]. cbn [has_newline].
  rewrite (IH B), orb_false_r. destruct (Ascii.eqb_spec c (ascii_of_nat 10)) as [->|]; [discriminate C|reflexivity].
Qed.
Lemma blank_app a b : blank_in (a +++ b) = (blank_in a || blank_in b)%bool.
Proof. induction a as [|c a IH]; [reflexivity|]. change (String c a +++ b) with (String c (a +++ b)). cbn [blank_in]. rewrite IH. now rewrite orb_assoc. Qed.

(** ---- lines ---- *)
Lemma lines_end a : forall cur r, has_newline a = false -> lines_from cur (a +++ eol +++ r) = (cur +++ a) :: lines_of r.
Proof.
  induction a as [|c a IH]; intros cur r H; [cbn; now rewrite append_nil|]. cbn [has_newline] in H. apply orb_false_iff in H.
  destruct H as [C H]. change (String c a +++ eol +++ r) with (String c (a +++ eol +++ r)). cbn [lines_from]. rewrite C. rewrite IH by exact H. rewrite append_assoc. reflexivity.
Qed.
Definition opt (s : string) : list string := if String.eqb s "" then [] else [s].
Lemma lines_last a : forall cur, has_newline a = false -> lines_from cur a = opt (cur +++ a).
Proof.
  induction a as [|c a IH]; intros cur H; [cbn; rewrite append_nil; reflexivity|]. cbn [has_newline] in H. apply orb_false_iff in H.
  destruct H as [C H]. cbn [lines_from]. rewrite C. rewrite IH by exact H. rewrite append_assoc. reflexivity.
Qed.

(** ---- words ---- *)
Lemma split_space a : forall cur r, blank_in a = false -> cur +++ a <> "" -> split_from cur (a +++ " " +++ r) = (cur +++ a) :: split_ws r.
Proof.
  induction a as [|c a IH]; intros cur r H N.
  - cbn. rewrite append_nil in *. destruct (String.eqb_spec cur ""); [contradiction|reflexivity].
  - apply blank_space in H. destruct H as [C H]. change (String c a +++ " " +++ r) with (String c (a +++ " " +++ r)). cbn [split_from]. rewrite C.
    rewrite IH; [rewrite append_assoc; reflexivity|exact H|]. rewrite append_assoc. exact N.
Qed.
Lemma split_last a : forall cur, blank_in a = false -> split_from cur a = opt (cur +++ a).
Proof.
  induction a as [|c a IH]; intros cur H; [cbn; rewrite append_nil; reflexivity|].
  apply blank_space in H. destruct H as [C H]. cbn [split_from]. rewrite C. rewrite IH by exact H. rewrite append_assoc. reflexivity.
Qed.

Lemma append_cut : forall p rest a b : string, p +++ rest = a +++ b ->
  (exists c, p = a +++ c /\ b = c +++ rest) \/ (exists c, a = p +++ c).
Proof.
  induction p as [|x p IH]; intros rest a b E; [right; exists a; reflexivity|].
  destruct a as [|y a]; [left; exists (String x p); split; [reflexivity|symmetry; exact E]|].
  cbn [append] in E. injection E as -> E. destruct (IH rest a b E) as [(c & -> & ->)|(c & ->)].
  - left. exists c. split; reflexivity.
  - right. exists c. reflexivity.
Qed.

Section Text.
  Variable (show : Tok -> string) (parse : string -> Tok).

  Lemma words_free ts : Forall (legible show parse) ts -> has_newline (words_text show ts) = false.
  Proof.
    induction 1 as [|t r [(_ & B & _) _] _ IH]; [reflexivity|]. cbn [words_text]. rewrite !newline_app, (blank_newline _ B). exact IH.
  Qed.
  Lemma words_split ts : Forall (legible show parse) ts -> split_ws (words_text show ts) = map show ts.
  Proof.
    induction 1 as [|t r [(N & B & _) _] _ IH]; [reflexivity|]. cbn [words_text map]. unfold split_ws.
    rewrite split_space; [rewrite IH; reflexivity|exact B|exact N].
  Qed.
  Lemma words_parse ts : Forall (legible show parse) ts -> parse_line parse (words_text show ts) = LData ts.
  Proof.
    intros F. unfold parse_line. rewrite (words_split ts F), map_map. f_equal.
    induction F as [|t r [_ E] _ IH]; [reflexivity|]. cbn [map]. now rewrite E, IH.
  Qed.

  (** A text that begins the text of some words: whole words, and part of one more. *)
  Lemma words_cut : forall ts p rest, Forall (legible show parse) ts -> p +++ rest = words_text show ts ->
    exists j q, (j <= List.length ts)%nat /\ split_ws p = map show (firstn j ts) ++ opt q /\
      (q = "" \/ exists t, nth_error ts j = Some t /\ part_of_word q (show t)).
  Proof.
    induction ts as [|t r IH]; intros p rest F E.
    { cbn [words_text] in E. destruct p; [|discriminate]. exists 0%nat, "". split; [apply le_n|]. split; [reflexivity|now left]. }
    inversion F as [|? ? [(N & B & _) _] Fr]; subst. cbn [words_text] in E.
    destruct (append_cut _ _ _ _ E) as [(c & -> & E2)|(c & Ec)].
    - destruct c as [|x c].
      + rewrite append_nil. exists 0%nat, (show t). split; [apply Nat.le_0_l|]. split.
        * unfold split_ws. rewrite split_last by exact B. reflexivity.
        * right. exists t. split; [reflexivity|]. split; [exact N|]. exists "". now rewrite append_nil.
      + cbn [append] in E2. injection E2 as <- E2. symmetry in E2. destruct (IH c rest Fr E2) as (j & q & J & Sp & Q).
        exists (S j), q. split; [cbn [List.length]; lia|]. split; [|exact Q].
        change (show t +++ String " " c) with (show t +++ " " +++ c). unfold split_ws. rewrite split_space by assumption.
        cbn [firstn map app]. rewrite Sp. reflexivity.
    - exists 0%nat, p. split; [apply Nat.le_0_l|]. assert (Bp : blank_in p = false).
      { rewrite Ec, blank_app in B. now apply orb_false_iff in B. }
      split; [unfold split_ws; rewrite split_last by exact Bp; reflexivity|].
      destruct (String.eqb_spec p "") as [->|Np]; [now left|right]. exists t. split; [reflexivity|]. split; [exact Np|]. exists c. exact Ec.
  Qed.

  Definition plain_line (l : Line) : Prop := has_newline (body show l) = false.

  Lemma lines_text f : Forall plain_line f -> lines_of (text_of show f) = map (body show) f.
  Proof.
    induction 1 as [|l r P _ IH]; [reflexivity|]. cbn [text_of map]. unfold lines_of. rewrite lines_end by exact P.
    cbn [append]. now rewrite IH.
  Qed.
  Lemma ends_app a b : line_ends (a +++ b) = (line_ends a + line_ends b)%nat.
  Proof. induction a as [|c a IH]; [reflexivity|]. change (String c a +++ b) with (String c (a +++ b)). cbn [line_ends]. rewrite IH. lia. Qed.
  Lemma ends_free a : has_newline a = false -> line_ends a = 0%nat.
  Proof.
    induction a as [|c a IH]; [reflexivity|]. cbn [has_newline line_ends]. intros H. apply orb_false_iff in H. destruct H as [C H].
    rewrite (IH H). destruct (Nat.eqb_spec (nat_of_ascii c) 10) as [E|]; [|reflexivity].
    rewrite <- E, ascii_nat_embedding, Ascii.eqb_refl in C. discriminate.
  Qed.

  (** A text that begins the text of a file: whole lines, and part of one more. *)
  Lemma text_cut : forall f p rest, Forall plain_line f -> p +++ rest = text_of show f ->
    exists q, (line_ends p <= List.length f)%nat /\ lines_of p = map (body show) (firstn (line_ends p) f) ++ opt q /\
      (q = "" \/ exists l r, nth_error f (line_ends p) = Some l /\ body show l = q +++ r).
  Proof.
    induction f as [|l f IH]; intros p rest F E.
    { cbn [text_of] in E. destruct p; [|discriminate]. exists "". split; [apply le_n|]. split; [reflexivity|now left]. }
    inversion F as [|? ? P Ff]; subst. cbn [text_of] in E.
    destruct (append_cut _ _ _ _ E) as [(c & -> & E2)|(c & Ec)].
    - destruct c as [|x c].
      + rewrite append_nil. rewrite (ends_free _ P). exists (body show l). split; [apply Nat.le_0_l|]. split.
        * unfold lines_of. rewrite lines_last by exact P. reflexivity.
        * right. exists l, "". split; [reflexivity|now rewrite append_nil].
      + cbn [append] in E2. injection E2 as <- E2. symmetry in E2. destruct (IH c rest Ff E2) as (q & J & Sp & Q).
        assert (Le : line_ends (body show l +++ String (ascii_of_nat 10) c) = S (line_ends c)).
        { rewrite ends_app, (ends_free _ P). reflexivity. }
        rewrite Le. exists q. split; [cbn [List.length]; lia|]. split; [|exact Q].
        change (body show l +++ String (ascii_of_nat 10) c) with (body show l +++ eol +++ c). unfold lines_of.
        rewrite lines_end by exact P. cbn [firstn map app append]. rewrite Sp. reflexivity.
    - assert (Pp : has_newline p = false).
      { unfold plain_line in P. rewrite Ec, newline_app in P. now apply orb_false_iff in P. }
      rewrite (ends_free _ Pp). exists p. split; [apply Nat.le_0_l|].
      split; [unfold lines_of; rewrite lines_last by exact Pp; reflexivity|].
      right. exists l, c. split; [reflexivity|exact Ec].
  Qed.
End Text.

(** ---- reading ---- *)
Lemma read_one_more mk test x : forall pre acc, (forall l, In l pre -> ~ fails (mk (tokens l))) ->
  fst (read_lines mk test (-1) acc (pre ++ [x])) =
  match mk (tokens x) with
  | RBad => inr (acc ++ hits_in mk test pre)
  | RRaise e => inl e
  | RHitOk h => inr (acc ++ hits_in mk test pre ++ filter test [h])
  end.
Proof.
  induction pre as [|l r IH]; intros acc H.
  - cbn [app read_lines]. rewrite orb_true_r. unfold hits_in. cbn [flat_map app].
    destruct (mk (tokens x)) as [h| |e]; [|now rewrite app_nil_r|reflexivity]. cbn [fst filter]. destruct (test h); [reflexivity|now rewrite app_nil_r].
  - cbn [app read_lines]. rewrite orb_true_r. pose proof (H l (or_introl eq_refl)) as Hl. specialize (fun a => IH a (fun k I => H k (or_intror I))).
    unfold hits_in in *. cbn [flat_map]. destruct (mk (tokens l)) as [h| |e] eqn:E.
    + rewrite IH. cbn [hit_of filter]. destruct (mk (tokens x)); [..|reflexivity]; destruct (test h); cbn [app]; rewrite ?app_nil_l, <- ?app_assoc; reflexivity.
    + apply IH.
    + elim Hl. exists e. reflexivity.
Qed.
Lemma read_all mk test : forall pre acc, (forall l, In l pre -> ~ fails (mk (tokens l))) ->
  fst (read_lines mk test (-1) acc pre) = inr (acc ++ hits_in mk test pre).
Proof.
  induction pre as [|l r IH]; intros acc H; [cbn; now rewrite app_nil_r|].
  cbn [read_lines]. rewrite orb_true_r. pose proof (H l (or_introl eq_refl)) as Hl. specialize (fun a => IH a (fun k I => H k (or_intror I))).
  unfold hits_in in *. cbn [flat_map]. destruct (mk (tokens l)) as [h| |e] eqn:E.
  - rewrite IH. cbn [hit_of filter]. destruct (test h); cbn [app]; rewrite <- ?app_assoc; reflexivity.
  - apply IH.
  - elim Hl. exists e. reflexivity.
Qed.

(** Lines of which each hit gives one at most: the first lines are those of the first hits. *)
Lemma first_lines {A B} (f : A -> list B) : (forall a, (List.length (f a) <= 1)%nat) ->
  forall ls k, exists a b, ls = a ++ b /\ flat_map f a = firstn k (flat_map f ls).
Proof.
  intros F. induction ls as [|x r IH]; intros k; [exists [], []; split; [reflexivity|now rewrite firstn_nil]|].
  pose proof (F x) as Fx. destruct (f x) as [|y [|? ?]] eqn:E; [| |cbn [List.length] in Fx; lia].
  - destruct (IH k) as (a & b & -> & H). exists (x :: a), b. split; [reflexivity|]. cbn [flat_map]. rewrite E. exact H.
  - destruct k as [|k]; [exists [], (x :: r); split; reflexivity|]. destruct (IH k) as (a & b & -> & H). exists (x :: a), b.
    split; [reflexivity|]. cbn [flat_map]. rewrite E. cbn [app firstn]. now rewrite H.
Qed.
Lemma lines_at_one fmt w l : (List.length (lines_at fmt w l) <= 1)%nat.
Proof. unfold lines_at. destruct (snd _); cbn [List.length]; lia. Qed.

(** ---- header ---- *)
Lemma lines_free s : forall cur, has_newline cur = false -> Forall (fun l => has_newline l = false) (lines_from cur s).
Proof.
  induction s as [|c s IH]; intros cur H; cbn [lines_from].
  - destruct (String.eqb cur ""); [constructor|constructor; [exact H|constructor]].
  - destruct (Ascii.eqb c (ascii_of_nat 10)) eqn:E; [constructor; [exact H|apply IH; reflexivity]|].
    apply IH. rewrite newline_app, H. cbn [has_newline]. rewrite E. reflexivity.
Qed.
Lemma header_length_ex fmt comment : In fmt text_formats -> has_newline (the_comment comment) = false ->
  exists hdr, file_header fmt comment = Some hdr /\ List.length (lines_of hdr) = header_size fmt /\
    text_of (fun _ => "") (map LText (lines_of hdr)) = hdr.
Proof.
  assert (T : forall a l b, has_newline (a +++ l) = false -> text_of (fun _ => "") (map LText (lines_of b)) = b ->
    text_of (fun _ => "") (map LText (lines_of (a +++ l +++ newline +++ b))) = a +++ l +++ newline +++ b).
  { intros a l b N H. rewrite (header_lines a b l N). cbn [map text_of body]. rewrite H. rewrite append_assoc. reflexivity. }
  intros F H. each_format F; unfold file_header; eexists; (split; [reflexivity|]); fold (the_comment comment).
  - split; [rewrite (header_lines "#" _ (the_comment comment)) by exact H; vm_compute; reflexivity|].
    apply (T "#"); [exact H|vm_compute; reflexivity].
  - split; [rewrite (header_lines "" _ (the_comment comment)) by exact H; vm_compute; reflexivity|].
    apply (T ""); [exact H|vm_compute; reflexivity].
  - split; [rewrite (header_lines "#BLTrackFile " _ (the_comment comment)); [vm_compute; reflexivity|exact H]|].
    apply (T "#BLTrackFile "); [exact H|vm_compute; reflexivity].
  - split; [rewrite (header_lines "#BLTrackFile " _ (the_comment comment)); [vm_compute; reflexivity|exact H]|].
    apply (T "#BLTrackFile "); [exact H|vm_compute; reflexivity].
  - split; reflexivity.
Qed.
Lemma header_length fmt comment hdr : In fmt text_formats -> has_newline (the_comment comment) = false ->
  file_header fmt comment = Some hdr -> List.length (lines_of hdr) = header_size fmt.
Proof. intros F H E. destruct (header_length_ex fmt comment F H) as (h & E' & L & _). rewrite E in E'. injection E' as <-. exact L. Qed.

Lemma prefix_first q r : q <> "" -> String.prefix "#" (q +++ r) = String.prefix "#" q.
Proof.
  destruct q as [|c q]; [congruence|]. intros _. change (String c q +++ r) with (String c (q +++ r)).
  cbv [String.prefix]. destruct (ascii_dec "#" c); [|reflexivity]. destruct q, r; reflexivity.
Qed.
Lemma comment_text s : comment_line (LText s) = (String.eqb s "" || String.prefix "#" s)%bool.
Proof. exact (comment_same (LText s)). Qed.

Section File.
  Variable (show : Tok -> string) (parse : string -> Tok) (fmt : string) (H D : list Line).
  Hypothesis Fmt : In fmt text_formats.
  Hypothesis HH : Forall (fun l => exists s, l = LText s /\ has_newline s = false) H.
  Hypothesis HL : is_g4bl fmt = false -> assoc number_of_header_lines fmt = Some (List.length H).
  Hypothesis HG : is_g4bl fmt = true -> assoc number_of_header_lines fmt = Some 0%nat /\ (forall s, In (LText s) H -> comment_line (LText s) = true).
  Hypothesis HD : Forall (fun l => exists ts, l = LData ts /\ List.length ts = List.length (columns fmt) /\ Forall (legible show parse) ts) D.

  Lemma data_parse : map (parse_line parse) (map (body show) D) = D.
  Proof.
    clear - HD. revert HD. generalize D. clear. intros l. rewrite map_map. induction l as [|a l IH]; [reflexivity|]. intros K.
    inversion K as [|? ? (ts & -> & _ & F) K']; subst. cbn [map body]. rewrite (words_parse show parse ts F), (IH K'). reflexivity.
  Qed.
  Lemma columns_some : columns fmt <> [].
  Proof. clear - Fmt. each_format Fmt; discriminate. Qed.
  Lemma data_start l q r : In l D -> body show l = q +++ r -> q <> "" -> comment_line (LText q) = false.
  Proof.
    clear HH HL HG. intros I E N. rewrite Forall_forall in HD. destruct (HD l I) as (ts & -> & L & F). cbn [body] in E.
    destruct ts as [|t ts]; [exfalso; apply columns_some; destruct (columns fmt); [reflexivity|discriminate]|].
    inversion F as [|? ? [(Nt & _ & Pt) _] _]; subst. cbn [words_text] in E.
    rewrite comment_text. destruct (String.eqb_spec q ""); [contradiction|]. cbn [orb].
    rewrite <- (prefix_first q r N), <- E, (prefix_first (show t) _ Nt). exact Pt.
  Qed.
  Lemma all_plain : Forall (plain_line show) (H ++ D).
  Proof.
    apply Forall_app. split.
    - eapply Forall_impl; [|exact HH]. intros l (s & -> & P). exact P.
    - eapply Forall_impl; [|exact HD]. intros l (ts & -> & _ & F). exact (words_free show parse ts F).
  Qed.

  Lemma filter_none {A} (f : A -> bool) l : (forall x, In x l -> f x = false) -> filter f l = [].
  Proof. induction l as [|a l IH]; intros K; [reflexivity|]. cbn [filter]. rewrite (K a (or_introl eq_refl)). apply IH. intros x I. apply K. now right. Qed.
  Lemma filter_all {A} (f : A -> bool) l : (forall x, In x l -> f x = true) -> filter f l = l.
  Proof. induction l as [|a l IH]; intros K; [reflexivity|]. cbn [filter]. rewrite (K a (or_introl eq_refl)). f_equal. apply IH. intros x I. apply K. now right. Qed.

  Lemma firstn_in {A} k (l : list A) x : In x (firstn k l) -> In x l.
  Proof. intros I. rewrite <- (firstn_skipn k l). apply in_or_app. now left. Qed.

  (** The lines of a cut off file that the reader sees. *)
  Lemma setup_cut text k q : lines_of text = map (body show) (firstn k (H ++ D)) ++ opt q -> (k <= List.length (H ++ D))%nat ->
    (q = "" \/ exists l r, nth_error (H ++ D) k = Some l /\ body show l = q +++ r) ->
    setup_text fmt text = inr (map (body show) (firstn (k - List.length H) D) ++ if Nat.ltb k (List.length H) then [] else opt q).
  Proof.
    intros L K Q. unfold setup_text. rewrite L. destruct (is_g4bl fmt) eqn:G.
    - destruct (HG eq_refl) as [-> C]. f_equal. change (skipn 0 ?x) with x. rewrite firstn_app, map_app, !filter_app.
      assert (E1 : filter (fun s => negb (comment_line (LText s))) (map (body show) (firstn k H)) = []).
      { apply filter_none. intros s I. apply in_map_iff in I. destruct I as (l & <- & I). apply firstn_in in I.
        rewrite Forall_forall in HH. destruct (HH l I) as (s & -> & _). cbn [body]. rewrite (C s I). reflexivity. }
      assert (E2 : filter (fun s => negb (comment_line (LText s))) (map (body show) (firstn (k - List.length H) D)) = map (body show) (firstn (k - List.length H) D)).
      { apply filter_all. intros s I. apply in_map_iff in I. destruct I as (l & <- & I). apply firstn_in in I.
        rewrite (data_start l (body show l) "" I); [reflexivity|now rewrite append_nil|].
        intros Z. rewrite Forall_forall in HD. destruct (HD l I) as (ts & -> & Lt & F). cbn [body] in Z.
        destruct ts as [|t ts]; [apply columns_some; destruct (columns fmt); [reflexivity|discriminate]|].
        inversion F as [|? ? [(Nt & _) _] _]; subst. cbn [words_text] in Z. destruct (show t); [now apply Nt|discriminate]. }
      rewrite E1, E2. cbn [app]. f_equal. unfold opt. destruct (String.eqb_spec q "") as [->|N]; [destruct (Nat.ltb _ _); reflexivity|].
      destruct Q as [Q|(l & r & El & Eb)]; [contradiction|]. cbn [filter]. destruct (Nat.ltb_spec k (List.length H)) as [Lk|Lk].
      + rewrite nth_error_app1 in El by exact Lk. apply nth_error_In in El. rewrite Forall_forall in HH.
        destruct (HH l El) as (s & -> & _). cbn [body] in Eb. pose proof (C s El) as Cs. rewrite comment_text in Cs. rewrite comment_text.
        destruct (String.eqb_spec s "") as [->|Ns]; [destruct q; [contradiction|discriminate]|]. cbn [orb] in Cs.
        rewrite Eb, (prefix_first q r N) in Cs. rewrite Cs, orb_true_r. reflexivity.
      + rewrite nth_error_app2 in El by exact Lk. apply nth_error_In in El. rewrite (data_start l q r El Eb N). reflexivity.
    - rewrite (HL eq_refl). f_equal. destruct (Nat.ltb_spec k (List.length H)) as [Lk|Lk].
      + replace (k - List.length H)%nat with 0%nat by lia. cbn [firstn map app]. apply skipn_all2. rewrite app_length, map_length, firstn_length.
        unfold opt. destruct (String.eqb q ""); cbn [List.length]; lia.
      + rewrite firstn_app, (firstn_all2 H) by exact Lk. rewrite map_app, <- app_assoc. apply skipn_exact. apply map_length.
  Qed.

  Lemma setup_whole : setup_text fmt (text_of show (H ++ D)) = inr (map (body show) D).
  Proof.
    pose proof (setup_cut (text_of show (H ++ D)) (List.length (H ++ D)) "") as S.
    rewrite firstn_all, (lines_text show _ all_plain) in S. rewrite S; [|change (opt "") with (@nil string); now rewrite app_nil_r|apply le_n|now left].
    rewrite app_length. replace (List.length H + List.length D - List.length H)%nat with (List.length D) by lia. rewrite firstn_all.
    clear S. change (opt "") with (@nil string). destruct (Nat.ltb _ _); now rewrite app_nil_r.
  Qed.

  Lemma data_first k : map (parse_line parse) (map (body show) (firstn k D)) = firstn k D.
  Proof. rewrite <- !firstn_map. now rewrite data_parse. Qed.

  Lemma last_split {A} (l : list A) j x : nth_error l j = Some x -> S j = List.length l -> l = firstn j l ++ [x].
  Proof.
    intros E L. rewrite <- (firstn_skipn j l) at 1. f_equal. pose proof (skipn_length j l) as Q.
    destruct (skipn j l) as [|y r] eqn:K; [cbn [List.length] in Q; lia|]. destruct r; [|cbn [List.length] in Q; lia].
    pose proof (nth_error_split l j E) as (a & b & -> & La). subst j. rewrite skipn_app, skipn_all, Nat.sub_diag in K.
    cbn [app skipn] in K. congruence.
  Qed.

  Lemma cut_read (c : RCtx) part rest : text_of show (H ++ D) = part +++ rest ->
    (forall l, In l D -> ~ fails (read_hit fmt c (tokens l))) ->
    let k := (line_ends part - List.length H)%nat in let found := hits_in (read_hit fmt c) (fun _ => true) (firstn k D) in
    let res := read_text parse fmt c (fun _ => true) (-1) part in
    (k <= List.length D)%nat /\
    (res = inr found \/ exists ts t q, nth_error D k = Some (LData (ts ++ [t])) /\ part_of_word q (show t) /\
       res = match read_hit fmt c (ts ++ [parse q]) with RHitOk h => inr (found ++ [h]) | RRaise e => inl e | RBad => inr found end).
  Proof.
    intros E NF. cbv zeta. symmetry in E. destruct (text_cut show (H ++ D) part rest all_plain E) as (q & K & L & Q).
    set (n := line_ends part) in *. split; [rewrite app_length in K; lia|].
    destruct (format_facts fmt Fmt) as (_ & _ & _ & _ & _ & F6 & _).
    unfold read_text. rewrite F6. cbn [negb]. rewrite (setup_cut part n q L K Q), map_app, data_first.
    set (m := (n - List.length H)%nat). set (found := hits_in (read_hit fmt c) (fun _ => true) (firstn m D)).
    assert (NF' : forall l, In l (firstn m D) -> ~ fails (read_hit fmt c (tokens l))) by (intros l I; apply NF, (firstn_in m), I).
    assert (Done : fst (read_lines (read_hit fmt c) (fun _ => true) (-1) [] (firstn m D ++ [])) = inr found).
    { rewrite app_nil_r. exact (read_all (read_hit fmt c) (fun _ => true) (firstn m D) [] NF'). }
    destruct (Nat.ltb_spec n (List.length H)) as [Ln|Ln]; [left; exact Done|]. unfold opt.
    destruct (String.eqb_spec q "") as [->|N]; [left; exact Done|]. destruct Q as [Q|(l & r & El & Eb)]; [contradiction|].
    rewrite nth_error_app2 in El by exact Ln. fold m in El. rewrite Forall_forall in HD.
    destruct (HD l (nth_error_In _ _ El)) as (ts & -> & Lt & F). cbn [body] in Eb. symmetry in Eb.
    destruct (words_cut show parse ts q r F Eb) as (j & w & J & Sw & W). cbn [map]. unfold parse_line. rewrite Sw, map_app, map_map.
    rewrite (read_one_more (read_hit fmt c) (fun _ => true) _ (firstn m D) [] NF'). cbn [tokens app filter]. fold found.
    assert (Ej : map (fun x => parse (show x)) (firstn j ts) = firstn j ts).
    { rewrite <- (map_id (firstn j ts)) at 2. apply map_ext_in. intros x I. apply firstn_in in I. rewrite Forall_forall in F. exact (proj2 (F x I)). }
    rewrite Ej. set (tk := firstn j ts ++ map parse (opt w)).
    destruct (Nat.eq_dec (List.length tk) (List.length (columns fmt))) as [Lk|Lk].
    - right. assert (C0 : List.length (columns fmt) <> 0%nat) by (intros Z; apply columns_some; now destruct (columns fmt)).
      unfold tk, opt in Lk. destruct (String.eqb_spec w "") as [->|Nw].
      + cbn [map] in Lk. rewrite app_nil_r, firstn_length in Lk. assert (Jt : j = List.length ts) by lia.
        destruct (exists_last (l := ts)) as (t0 & t & Et); [intros Z; subst ts; cbn [List.length] in Lt; lia|].
        exists t0, t, (show t). rewrite <- Et. split; [exact El|].
        rewrite Forall_forall in F. destruct (F t) as [(Nt & _) Pt]; [rewrite Et; apply in_or_app; right; now left|].
        split; [split; [exact Nt|exists ""; now rewrite append_nil]|]. unfold tk, opt. cbn [String.eqb map]. rewrite Jt, firstn_all, app_nil_r, Pt, <- Et. reflexivity.
      + destruct W as [W|(t & Et & Pw)]; [contradiction|]. cbn [map] in Lk. rewrite app_length, firstn_length in Lk. cbn [List.length] in Lk.
        assert (Jt : S j = List.length ts) by lia. exists (firstn j ts), t, w. rewrite <- (last_split ts j t Et Jt). split; [exact El|]. split; [exact Pw|].
        unfold tk, opt. destruct (String.eqb_spec w ""); [contradiction|]. reflexivity.
    - left. rewrite (proj2 (read_hit_bad fmt c tk Fmt) Lk). reflexivity.
  Qed.
End File.

Lemma written_length fmt w c ls out hits : written fmt w ls out -> reloaded fmt w c ls hits -> List.length hits = List.length out.
Proof.
  intros Wr. revert hits. induction Wr as [|l s pid ts ls out A B C E W IH|l pid ls out B C W IH]; intros hits R.
  - inversion R. reflexivity.
  - inversion R as [|? ? ? ? ? ? ? ? ? ? R'|? pid' ? ? B' C' R']; subst; [cbn [List.length]; f_equal; exact (IH _ R')|].
    unfold has_pid in *. rewrite B in B'. injection B' as <-. contradiction.
  - inversion R as [|? ? pid' ? ? ? ? B' C' ? R'|? pid' ? ? B' C' R']; subst; [|exact (IH _ R')].
    unfold has_pid in *. rewrite B in B'. injection B' as <-. contradiction.
Qed.

Lemma file_parts fmt (w : RWorld) ls comment w' file : In fmt text_formats -> ints_ok w ->
  (forall l, In l ls -> is_hit w l) -> has_newline (the_comment comment) = false ->
  write_list "mm" fmt w ls comment = (w', inr file) ->
  exists hdr sorted, file_header fmt comment = Some hdr /\ List.length (lines_of hdr) = header_size fmt /\
    file = map LText (lines_of hdr) ++ flat_map (lines_at fmt w) sorted /\
    by_station w ls sorted /\ (forall l, In l sorted -> is_hit w l).
Proof.
  intros F W H C Wr. destruct (format_facts fmt F) as (_ & _ & _ & _ & _ & F6 & _).
  set (sorted := sort (fun a b => Z.ltb (station w a) (station w b)) ls).
  assert (B : by_station w ls sorted) by apply sort_by_station.
  assert (HS : forall l, In l sorted -> is_hit w l) by (intros l Hl; apply H, B, Hl).
  destruct (write_loop_spec fmt sorted F w w None [] W (weq_refl w) HS) as (w1 & E1 & Q).
  destruct (header_length_ex fmt comment F C) as (hdr & E & L & _). exists hdr, sorted.
  unfold write_list in Wr. rewrite F6, E in Wr. fold sorted in Wr. cbn [negb] in Wr. rewrite E1 in Wr. injection Wr as _ <-. auto.
Qed.

Lemma text_header show ss : text_of show (map LText ss) = text_of (fun _ => "") (map LText ss).
Proof. induction ss as [|s ss IH]; [reflexivity|]. cbn [map text_of body]. now rewrite IH. Qed.
Lemma text_app show a b : text_of show (a ++ b) = text_of show a +++ text_of show b.
Proof. induction a as [|l a IH]; [reflexivity|]. cbn [app text_of]. now rewrite IH, !append_assoc. Qed.

Lemma written_rows fmt (w : RWorld) ls out show parse : written fmt w ls out ->
  (forall ts t, In (LData ts) out -> In t ts -> legible show parse t) ->
  Forall (fun l => exists ts, l = LData ts /\ List.length ts = List.length (columns fmt) /\ Forall (legible show parse) ts) out.
Proof.
  induction 1 as [|l s pid ts ls out A B C E W IH|]; intros K; [constructor| |auto]. constructor.
  - exists ts. split; [reflexivity|]. split; [symmetry; exact (forall2_len _ _ _ E)|].
    apply Forall_forall. intros t I. exact (K ts t (or_introl eq_refl) I).
  - apply IH. intros k t I J. exact (K k t (or_intror I) J).
Qed.

Lemma header_facts fmt comment hdr : In fmt text_formats -> has_newline (the_comment comment) = false ->
  file_header fmt comment = Some hdr -> let H := map LText (lines_of hdr) in
  Forall (fun l => exists s, l = LText s /\ has_newline s = false) H /\
  (is_g4bl fmt = false -> assoc number_of_header_lines fmt = Some (List.length H)) /\
  (is_g4bl fmt = true -> assoc number_of_header_lines fmt = Some 0%nat /\ (forall s, In (LText s) H -> comment_line (LText s) = true)).
Proof.
  intros F C E H. destruct (header_spec fmt comment F C) as (h & E' & A & B). rewrite E in E'. injection E' as <-. unfold H. rewrite map_length.
  split; [|split; [exact A|]].
  - apply Forall_forall. intros l I. apply in_map_iff in I. destruct I as (s & <- & I). exists s. split; [reflexivity|].
    pose proof (lines_free hdr "" eq_refl) as L. rewrite Forall_forall in L. exact (L s I).
  - intros G. destruct (B G) as [B1 B2]. split; [exact B1|]. intros s I. apply in_map_iff in I. destruct I as (s' & [= ->] & I). exact (B2 s I).
Qed.
