(** Text files character by character, and files cut off in the middle: C99. *)
From Coq Require Import Reals ZArith String List Bool Ascii Lra Lia Permutation Sorted.
From Verif Require Import Num WeightModel HitcoreModel HitcoreSpec HitcoreProofs PyLibModel
  PyLibProofs HitPyModel HitPySpec HitPyProofs TableModel BunchModel BunchNumModel StatProofs
  IOModel IOSpec IOProofs IOFileProofs IOProps TextModel TextSpec TextProofs.
Import ListNotations.
Open Scope string_scope.
Open Scope list_scope.
Open Scope R_scope.

Lemma parts_data fmt comment hdr (w : RWorld) sorted : In fmt text_formats -> has_newline (the_comment comment) = false ->
  file_header fmt comment = Some hdr -> List.length (lines_of hdr) = header_size fmt -> ints_ok w -> (forall l, In l sorted -> is_hit w l) ->
  data_lines fmt (map LText (lines_of hdr) ++ flat_map (lines_at fmt w) sorted) = flat_map (lines_at fmt w) sorted.
Proof.
  intros F C E L W HS. destruct (header_facts fmt comment hdr F C E) as (A1 & A2 & A3).
  pose proof (written_comment fmt w sorted _ F (lines_written fmt w sorted F W HS)) as WC.
  assert (FC : is_g4bl fmt = true -> filter (fun l => negb (is_comment l)) (map LText (lines_of hdr)) = []).
  { intros G. destruct (A3 G) as [_ D3]. apply filter_none. intros l I. pose proof I as I'. apply in_map_iff in I'. destruct I' as (s & <- & _).
    rewrite <- comment_same, (D3 s I). reflexivity. }
  clear E A1 A2 A3. each_format F; unfold data_lines; cbn [String.eqb Ascii.eqb Bool.eqb].
  - apply skipn_exact. rewrite map_length. exact L.
  - apply skipn_exact. rewrite map_length. exact L.
  - rewrite filter_app, WC, FC by reflexivity. reflexivity.
  - rewrite filter_app, WC, FC by reflexivity. reflexivity.
  - destruct (lines_of hdr); [reflexivity|discriminate L].
Qed.

(** The text begins with the header, as it is. *)
Theorem C99_header : forall (p : list (WOp RNum)) fmt ls comment w' file show,
  In fmt text_formats -> (forall l, In l ls -> is_hit (wrun p) l) ->
  has_newline (the_comment comment) = false ->
  write_list "mm" fmt (wrun p) ls comment = (w', inr file) ->
  exists hdr, file_header fmt comment = Some hdr /\ line_ends hdr = header_size fmt /\
    text_of show file = (hdr ++ text_of show (data_lines fmt file))%string.
Proof.
  intros p fmt ls comment w' file show F H C W.
  destruct (file_parts fmt (wrun p) ls comment w' file F (reach_ints p) H C W) as (hdr & sorted & E & L & Ef & B & HS).
  exists hdr. split; [exact E|].
  destruct (header_length_ex fmt comment F C) as (h & E' & _ & T). rewrite E in E'. injection E' as <-.
  destruct (header_facts fmt comment hdr F C E) as (A1 & A2 & A3).
  split.
  - rewrite <- T, <- L. clear - A1. induction (lines_of hdr) as [|s r IH]; [reflexivity|]. cbn [map] in A1.
    inversion A1 as [|? ? (s' & Es & P) A1']. injection Es as <-. cbn [map text_of body List.length].
    rewrite ends_app, (ends_free s P), ends_app, (IH A1'). reflexivity.
  - rewrite Ef, (parts_data fmt comment hdr (wrun p) sorted F C E L (reach_ints p) HS), text_app. f_equal. rewrite text_header. exact T.
Qed.
Print Assumptions C99_header.

(** Reading the text of a whole file gives what reading its lines gives. *)
Theorem C99_whole : forall (p : list (WOp RNum)) fmt ls comment w' file show parse (c : RCtx) test n,
  In fmt text_formats -> (forall l, In l ls -> is_hit (wrun p) l) ->
  has_newline (the_comment comment) = false ->
  write_list "mm" fmt (wrun p) ls comment = (w', inr file) ->
  (forall ts t, In (LData ts) file -> In t ts -> legible show parse t) ->
  read_text parse fmt c test n (text_of show file) = new_from_read_builtin fmt c test n [file].
Proof.
  intros p fmt ls comment w' file show parse c test n F H C W Lg.
  destruct (file_parts fmt (wrun p) ls comment w' file F (reach_ints p) H C W) as (hdr & sorted & E & L & Ef & B & HS).
  destruct (header_facts fmt comment hdr F C E) as (A1 & A2 & A3).
  pose proof (lines_written fmt (wrun p) sorted F (reach_ints p) HS) as Wr. subst file.
  pose proof (written_rows fmt (wrun p) sorted _ show parse Wr (fun ts t I J => Lg ts t (in_or_app _ _ _ (or_intror I)) J)) as HD.
  destruct (format_facts fmt F) as (_ & _ & _ & _ & _ & F6 & _).
  unfold read_text, new_from_read_builtin. rewrite F6. cbn [negb].
  rewrite (setup_whole show parse fmt _ _ F A1 A2 A3 HD), (data_parse show parse fmt _ HD).
  cbn [read_files]. rewrite (setup_data fmt _ F), (parts_data fmt comment hdr (wrun p) sorted F C E L (reach_ints p) HS).
  destruct (read_lines _ _ _ _ _) as [[e|acc] rest]; reflexivity.
Qed.
Print Assumptions C99_whole.

(** What is read when only the first part of the text is there (a write that was interrupted):
    the hits of the complete lines, restored; the next line, if it got as far as its last
    word, is read too, with what there is of that word. *)
Theorem C99_cut : forall (p : list (WOp RNum)) fmt ls comment w' file show parse (c : RCtx) part rest,
  In fmt text_formats -> (forall l, In l ls -> is_hit (wrun p) l) ->
  has_newline (the_comment comment) = false ->
  write_list "mm" fmt (wrun p) ls comment = (w', inr file) ->
  (forall ts t, In (LData ts) file -> In t ts -> legible show parse t) ->
  text_of show file = (part ++ rest)%string ->
  exists sorted done more hits, by_station (wrun p) ls sorted /\ sorted = done ++ more /\
    reloaded fmt (wrun p) c done hits /\ List.length hits = (line_ends part - header_size fmt)%nat /\
    (read_text parse fmt c (fun _ => true) (-1) part = inr hits \/
     exists ts t q, nth_error (data_lines fmt file) (List.length hits) = Some (LData (ts ++ [t])) /\
       part_of_word q (show t) /\
       read_text parse fmt c (fun _ => true) (-1) part =
         match read_hit fmt c (ts ++ [parse q]) with
         | RHitOk h => inr (hits ++ [h])
         | RRaise e => inl e
         | RBad => inr hits
         end).
Proof.
  intros p fmt ls comment w' file show parse c part rest F H C W Lg E0.
  destruct (file_parts fmt (wrun p) ls comment w' file F (reach_ints p) H C W) as (hdr & sorted & E & L & Ef & B & HS).
  destruct (header_facts fmt comment hdr F C E) as (A1 & A2 & A3).
  pose proof (lines_written fmt (wrun p) sorted F (reach_ints p) HS) as Wr. subst file.
  rewrite (parts_data fmt comment hdr (wrun p) sorted F C E L (reach_ints p) HS).
  pose proof (written_rows fmt (wrun p) sorted _ show parse Wr (fun ts t I J => Lg ts t (in_or_app _ _ _ (or_intror I)) J)) as HD.
  set (D := flat_map (lines_at fmt (wrun p)) sorted) in *.
  destruct (lines_reloaded fmt (wrun p) c sorted F (reach_ints p) HS) as [NF _]. fold D in NF.
  pose proof (cut_read show parse fmt _ D F A1 A2 A3 HD c part rest E0 NF) as K. cbv zeta in K. rewrite map_length, L in K.
  destruct K as [Kl K]. set (k := (line_ends part - header_size fmt)%nat) in *.
  destruct (first_lines (lines_at fmt (wrun p)) (lines_at_one fmt (wrun p)) sorted k) as (done & more & Es & Ed). fold D in Ed.
  assert (HS' : forall l, In l done -> is_hit (wrun p) l) by (intros l I; apply HS; rewrite Es; apply in_or_app; now left).
  destruct (lines_reloaded fmt (wrun p) c done F (reach_ints p) HS') as [_ Rl].
  pose proof (written_length fmt (wrun p) c done _ _ (lines_written fmt (wrun p) done F (reach_ints p) HS') Rl) as Ll.
  rewrite Ed in Rl, Ll. rewrite firstn_length, Nat.min_l in Ll by exact Kl.
  exists sorted, done, more, (hits_in (read_hit fmt c) (fun _ => true) (firstn k D)). rewrite Ll.
  split; [exact B|]. split; [exact Es|]. split; [exact Rl|]. split; [reflexivity|]. exact K.
Qed.
Print Assumptions C99_cut.

Lemma last_holds {A B} (P : A -> B -> Prop) a x b y : Forall2 P (a ++ [x]) (b ++ [y]) -> P x y.
Proof.
  intros K. apply Forall2_app_inv_l in K. destruct K as (l1 & l2 & _ & K2 & E). inversion K2 as [|? y' ? ? P' Q]; subst. inversion Q; subst.
  apply app_inj_tail in E. destruct E as [_ ->]. exact P'.
Qed.
Lemma written_last fmt (w : RWorld) ls out ts t cols u : written fmt w ls out -> In (LData (ts ++ [t])) out ->
  columns fmt = cols ++ [("", u)] -> t = TInt 0.
Proof.
  intros Wr I E. induction Wr as [|l s pid tk ls out A B C Fc Wr IH|]; [destruct I| |auto]. destruct I as [[= ->]|I]; [|auto].
  rewrite E in Fc. apply last_holds in Fc. exact Fc.
Qed.
Lemma hits_firstn mk test D k l : nth_error D k = Some l ->
  hits_in mk test (firstn (S k) D) = hits_in mk test (firstn k D) ++ hits_in mk test [l].
Proof.
  intros E. unfold hits_in. rewrite <- flat_map_app. f_equal.
  revert k E. induction D as [|d D IH]; intros [|k] E; cbn in E; try discriminate; [injection E as ->; reflexivity|].
  cbn [firstn app]. f_equal. exact (IH k E).
Qed.

(** Files of the kind g4beamline_bl_track_file_2 end their lines with a zero: however they are
    cut off, reading gives the first hits of the file, at least all those with a complete
    line, and never a wrong one. *)
Theorem C99_kept : forall (p : list (WOp RNum)) ls comment w' file show parse (c : RCtx) part rest,
  let fmt := "g4beamline_bl_track_file_2" in
  (forall l, In l ls -> is_hit (wrun p) l) ->
  has_newline (the_comment comment) = false ->
  write_list "mm" fmt (wrun p) ls comment = (w', inr file) ->
  (forall ts t, In (LData ts) file -> In t ts -> legible show parse t) -> show (TInt 0) = "0" ->
  text_of show file = (part ++ rest)%string ->
  exists sorted done more hits, by_station (wrun p) ls sorted /\ sorted = done ++ more /\
    reloaded fmt (wrun p) c done hits /\ (line_ends part - 2 <= List.length hits <= line_ends part - 2 + 1)%nat /\
    read_text parse fmt c (fun _ => true) (-1) part = inr hits.
Proof.
  intros p ls comment w' file show parse c part rest fmt H C W Lg Z E0.
  assert (F : In fmt text_formats) by (unfold fmt; cbn; tauto).
  destruct (file_parts fmt (wrun p) ls comment w' file F (reach_ints p) H C W) as (hdr & sorted & E & L & Ef & B & HS).
  destruct (header_facts fmt comment hdr F C E) as (A1 & A2 & A3).
  pose proof (lines_written fmt (wrun p) sorted F (reach_ints p) HS) as Wr. subst file.
  pose proof (written_rows fmt (wrun p) sorted _ show parse Wr (fun ts t I J => Lg ts t (in_or_app _ _ _ (or_intror I)) J)) as HD.
  set (D := flat_map (lines_at fmt (wrun p)) sorted) in *.
  destruct (lines_reloaded fmt (wrun p) c sorted F (reach_ints p) HS) as [NF _]. fold D in NF.
  pose proof (cut_read show parse fmt _ D F A1 A2 A3 HD c part rest E0 NF) as K. cbv zeta in K. rewrite map_length, L in K.
  change (header_size fmt) with 2%nat in K. destruct K as [Kl K]. set (k := (line_ends part - 2)%nat) in *.
  assert (G : exists m, (k <= m <= k + 1)%nat /\ (m <= List.length D)%nat /\
    read_text parse fmt c (fun _ => true) (-1) part = inr (hits_in (read_hit fmt c) (fun _ => true) (firstn m D))).
  { destruct K as [K|(ts & t & q & En & (Nq & r & Eq) & K)]; [exists k; split; [lia|split; [exact Kl|exact K]]|].
    pose proof (nth_error_In _ _ En) as In_l.
    assert (Et : t = TInt 0) by (refine (written_last fmt (wrun p) sorted D ts t (removelast (columns fmt)) 1 Wr In_l _); unfold fmt, columns; cbn; reflexivity).
    assert (Eqq : q = show t).
    { rewrite Et, Z in Eq |- *. destruct q as [|a q]; [congruence|]. destruct q as [|? ?]; [|discriminate Eq]. cbn in Eq. injection Eq as <- _. reflexivity. }
    assert (Pt : parse (show t) = t).
    { apply (Lg (ts ++ [t]) t); [apply in_or_app; right; exact In_l|apply in_or_app; right; now left]. }
    rewrite Eqq, Pt in K. pose proof (hits_firstn (read_hit fmt c) (fun _ => true) D k _ En) as Hf.
    exists (S k). split; [lia|]. split; [apply nth_error_Some; congruence|]. rewrite K, Hf. unfold hits_in at 4. cbn [flat_map tokens].
    pose proof (NF _ In_l) as Nf. cbn [tokens] in Nf. destruct (read_hit fmt c (ts ++ [t])) as [h| |e]; cbn [hit_of app filter].
    - reflexivity.
    - now rewrite app_nil_r.
    - exfalso. apply Nf. eexists. reflexivity. }
  destruct G as (m & Km & Lm & G).
  destruct (first_lines (lines_at fmt (wrun p)) (lines_at_one fmt (wrun p)) sorted m) as (done & more & Es & Ed). fold D in Ed.
  assert (HS' : forall l, In l done -> is_hit (wrun p) l) by (intros l I; apply HS; rewrite Es; apply in_or_app; now left).
  destruct (lines_reloaded fmt (wrun p) c done F (reach_ints p) HS') as [_ Rl].
  pose proof (written_length fmt (wrun p) c done _ _ (lines_written fmt (wrun p) done F (reach_ints p) HS') Rl) as Ll.
  rewrite Ed in Rl, Ll. rewrite firstn_length, Nat.min_l in Ll by exact Lm.
  exists sorted, done, more, (hits_in (read_hit fmt c) (fun _ => true) (firstn m D)). rewrite Ll.
  split; [exact B|]. split; [exact Es|]. split; [exact Rl|]. split; [exact Km|]. exact G.
Qed.
Print Assumptions C99_kept.

(** ---- the last word of a line may be cut ---- *)

(** Texts of some numbers. *)
Definition ex_show (t : Tok) : string :=
  match t with
  | TInt 1 => "1"
  | TInt 7 => "7"
  | TInt _ => "0"
  | TNum x => if Req_EM_T x (1 / 2) then "0.5" else if Req_EM_T x 1 then "1.0" else if Req_EM_T x (-1) then "-1.0" else "0.0"
  | _ => "?"
  end.
Definition ex_parse (s : string) : Tok :=
  if String.eqb s "1" then TInt 1 else if String.eqb s "7" then TInt 7 else if String.eqb s "0" then TInt 0
  else if String.eqb s "0.5" then TNum (1 / 2) else if String.eqb s "1.0" then TNum 1 else if String.eqb s "-1.0" then TNum (-1)
  else if String.eqb s "0.0" then TNum 0 else if String.eqb s "0." then TNum 0 else if String.eqb s "1." then TNum 1
  else if String.eqb s "-1." then TNum (-1) else if String.eqb s "-1" then TInt (-1) else TBad.
Definition ex_row (x : R) : Line :=
  LData [TInt 1; TInt 7; TNum 0; TNum 0; TNum 0; TNum 0; TNum 0; TNum 1; TNum 1; TNum 0; TNum x].
Lemma ex_tokens t : In t [TInt 0; TInt 1; TInt 7; TNum 0; TNum 1; TNum (1 / 2); TNum (-1)] -> legible ex_show ex_parse t.
Proof.
  assert (W : forall a s, ex_show a = s -> s <> "" -> blank_in s = false -> String.prefix "#" s = false -> ex_parse s = a -> legible ex_show ex_parse a).
  { intros a s <- N B Q E. split; [split; [exact N|split; [exact B|exact Q]]|exact E]. }
  cbn [In]. intros I.
  destruct I as [<-|[<-|[<-|[<-|[<-|[<-|[<-|[]]]]]]]].
  - apply (W _ "0"); [reflexivity|discriminate|reflexivity..].
  - apply (W _ "1"); [reflexivity|discriminate|reflexivity..].
  - apply (W _ "7"); [reflexivity|discriminate|reflexivity..].
  - apply (W _ "0.0"); [|discriminate|reflexivity..]. cbn [ex_show]. destruct (Req_EM_T 0 (1 / 2)); [lra|]. destruct (Req_EM_T 0 1); [lra|]. destruct (Req_EM_T 0 (-1)); [lra|reflexivity].
  - apply (W _ "1.0"); [|discriminate|reflexivity..]. cbn [ex_show]. destruct (Req_EM_T 1 (1 / 2)); [lra|]. destruct (Req_EM_T 1 1); [reflexivity|lra].
  - apply (W _ "0.5"); [|discriminate|reflexivity..]. cbn [ex_show]. destruct (Req_EM_T (1 / 2) (1 / 2)); [reflexivity|lra].
  - apply (W _ "-1.0"); [|discriminate|reflexivity..]. cbn [ex_show]. destruct (Req_EM_T (-1) (1 / 2)); [lra|]. destruct (Req_EM_T (-1) 1); [lra|]. destruct (Req_EM_T (-1) (-1)); [reflexivity|lra].
Qed.
Lemma show_0 : ex_show (TNum 0) = "0.0".
Proof. cbn [ex_show]. destruct (Req_EM_T 0 (1 / 2)); [lra|]. destruct (Req_EM_T 0 1); [lra|]. destruct (Req_EM_T 0 (-1)); [lra|reflexivity]. Qed.
Lemma show_1 : ex_show (TNum 1) = "1.0".
Proof. cbn [ex_show]. destruct (Req_EM_T 1 (1 / 2)); [lra|]. destruct (Req_EM_T 1 1); [reflexivity|lra]. Qed.
Lemma show_h : ex_show (TNum (1 / 2)) = "0.5".
Proof. cbn [ex_show]. destruct (Req_EM_T (1 / 2) (1 / 2)); [reflexivity|lra]. Qed.
Lemma show_m : ex_show (TNum (-1)) = "-1.0".
Proof. cbn [ex_show]. destruct (Req_EM_T (-1) (1 / 2)); [lra|]. destruct (Req_EM_T (-1) 1); [lra|]. destruct (Req_EM_T (-1) (-1)); [reflexivity|lra]. Qed.

Lemma ex_read (c : RCtx) x : exists h, read_hit "mars_1" c (tokens (ex_row x)) = RHitOk h /\ py_get (h, c) "local_weight" = inr (@PFloat RNum x).
Proof.
  assert (I1 : int32 1) by (split; lia). assert (I7 : int32 7) by (split; lia).
  unfold ex_row, tokens. unfold read_hit. cbn -[Rdiv Rmult c_light py_set complete translate_pid].
  psets. cbn [translate_if]. erewrite translate_pid_eq; [eexists; split; [reflexivity|]|reflexivity|split; lia].
  match goal with |- context [complete ?cols _ ?c0 ?h0] => destruct (complete_spec cols c0 h0 eq_refl) as (D & _) end.
  { unfold set_pid, put. cbn [fst snd]. unfold int32 in *. reflexivity. }
  do 2 f_equal. rewrite D. apply (eq_trans (y := (x * 1)%R)); [reflexivity|apply Rmult_1_r].
Qed.

(** A file cut off in its last word can be read with a wrong value: 0.5 cut to 0. is read as a
    weight of 0, and nothing tells the user. *)
Theorem C99_wrong_refuted : exists show parse row part rest,
  Forall (legible show parse) (tokens row) /\ text_of show [row] = (part ++ rest)%string /\
  forall (c : RCtx), exists h h',
    read_text parse "mars_1" c (fun _ => true) (-1) (text_of show [row]) = inr [h] /\
    py_get (h, c) "local_weight" = inr (@PFloat RNum (1 / 2)) /\
    read_text parse "mars_1" c (fun _ => true) (-1) part = inr [h'] /\
    py_get (h', c) "local_weight" = inr (@PFloat RNum 0).
Proof.
  exists ex_show, ex_parse, (ex_row (1 / 2)), "1 7 0.0 0.0 0.0 0.0 0.0 1.0 1.0 0.0 0.", ("5 " +++ eol).
  assert (T : text_of ex_show [ex_row (1 / 2)] = "1 7 0.0 0.0 0.0 0.0 0.0 1.0 1.0 0.0 0." +++ ("5 " +++ eol)).
  { unfold ex_row. cbn [text_of body words_text]. rewrite show_0, show_1, show_h. reflexivity. }
  split; [|split; [exact T|]].
  - apply Forall_forall. intros t I. apply ex_tokens. cbn in I |- *. tauto.
  - intros c. destruct (ex_read c (1 / 2)) as (h & E & G). destruct (ex_read c 0) as (h' & E' & G'). exists h, h'.
    assert (K : forall x text hx, setup_text "mars_1" text = inr [text] -> parse_line ex_parse text = ex_row x -> read_hit "mars_1" c (tokens (ex_row x)) = RHitOk hx ->
      read_text ex_parse "mars_1" c (fun _ => true) (-1) text = inr [hx]).
    { intros x text hx S1 S2 S3. unfold read_text. change (negb (is_in "mars_1" file_types)) with false. rewrite S1. cbn [map]. rewrite S2.
      cbn [read_lines]. rewrite S3. reflexivity. }
    split; [|split; [exact G|split; [|exact G']]].
    + rewrite T. unfold read_text. change (negb (is_in "mars_1" file_types)) with false.
      replace (setup_text "mars_1" _) with (@inr IOErr (list string) ["1 7 0.0 0.0 0.0 0.0 0.0 1.0 1.0 0.0 0.5 "]) by (vm_compute; reflexivity).
      cbn [map]. replace (parse_line ex_parse _) with (ex_row (1 / 2)) by reflexivity. cbn [read_lines]. rewrite E. reflexivity.
    + apply (K 0); [vm_compute; reflexivity|reflexivity|exact E'].
Qed.
Print Assumptions C99_wrong_refuted.

(** ... or it makes the whole reading fail, although the lines before are complete. *)
Theorem C99_fails_refuted : exists show parse row1 row2 part rest,
  Forall (legible show parse) (tokens row1 ++ tokens row2) /\
  text_of show [row1; row2] = (part ++ rest)%string /\ line_ends part = 1%nat /\
  forall (c : RCtx),
    (exists h1 h2, read_text parse "mars_1" c (fun _ => true) (-1) (text_of show [row1; row2]) = inr [h1; h2]) /\
    read_text parse "mars_1" c (fun _ => true) (-1) part = inl IValueError.
Proof.
  exists ex_show, ex_parse, (ex_row 1), (ex_row (-1)),
    ("1 7 0.0 0.0 0.0 0.0 0.0 1.0 1.0 0.0 1.0 " +++ eol +++ "1 7 0.0 0.0 0.0 0.0 0.0 1.0 1.0 0.0 -"), ("1.0 " +++ eol).
  assert (T : text_of ex_show [ex_row 1; ex_row (-1)] = ("1 7 0.0 0.0 0.0 0.0 0.0 1.0 1.0 0.0 1.0 " +++ eol +++ "1 7 0.0 0.0 0.0 0.0 0.0 1.0 1.0 0.0 -") +++ ("1.0 " +++ eol)).
  { unfold ex_row. cbn [text_of body words_text]. rewrite show_0, show_1, show_m. reflexivity. }
  split; [|split; [exact T|split; [reflexivity|]]].
  - apply Forall_forall. intros t I. apply ex_tokens. cbn in I |- *. tauto.
  - intros c. destruct (ex_read c 1) as (h & E & _). destruct (ex_read c (-1)) as (h' & E' & _).
    assert (B : read_hit "mars_1" c [TInt 1; TInt 7; TNum 0; TNum 0; TNum 0; TNum 0; TNum 0; TNum 1; TNum 1; TNum 0; TBad] = RRaise IValueError).
    { assert (I1 : int32 1) by (split; lia). assert (I7 : int32 7) by (split; lia).
      unfold read_hit. cbn -[Rdiv Rmult c_light py_set complete translate_pid]. psets. reflexivity. }
    split.
    + exists h, h'. rewrite T. unfold read_text. change (negb (is_in "mars_1" file_types)) with false.
      replace (setup_text "mars_1" _) with (@inr IOErr (list string) ["1 7 0.0 0.0 0.0 0.0 0.0 1.0 1.0 0.0 1.0 "; "1 7 0.0 0.0 0.0 0.0 0.0 1.0 1.0 0.0 -1.0 "]) by (vm_compute; reflexivity).
      cbn [map]. replace (parse_line ex_parse "1 7 0.0 0.0 0.0 0.0 0.0 1.0 1.0 0.0 1.0 ") with (ex_row 1) by reflexivity.
      replace (parse_line ex_parse _) with (ex_row (-1)) by reflexivity. cbn [read_lines]. rewrite E. cbn [fst]. rewrite E'. reflexivity.
    + unfold read_text. change (negb (is_in "mars_1" file_types)) with false.
      replace (setup_text "mars_1" _) with (@inr IOErr (list string) ["1 7 0.0 0.0 0.0 0.0 0.0 1.0 1.0 0.0 1.0 "; "1 7 0.0 0.0 0.0 0.0 0.0 1.0 1.0 0.0 -"]) by (vm_compute; reflexivity).
      cbn [map]. replace (parse_line ex_parse "1 7 0.0 0.0 0.0 0.0 0.0 1.0 1.0 0.0 1.0 ") with (ex_row 1) by reflexivity.
      replace (parse_line ex_parse _) with (LData [TInt 1; TInt 7; TNum 0; TNum 0; TNum 0; TNum 0; TNum 0; TNum 1; TNum 1; TNum 0; TBad]) by reflexivity.
      cbn [read_lines]. rewrite E. cbn [tokens]. rewrite B. reflexivity.
Qed.
Print Assumptions C99_fails_refuted.

(** ---- the hypotheses can be met for every file ---- *)
Lemma tok_dec (a b : Tok) : {a = b} + {a <> b}.
Proof. decide equality; [apply Z.eq_dec|apply Req_EM_T]. Qed.
Fixpoint zeros (k : nat) : string := match k with O => "" | S m => String "0" (zeros m) end.
Lemma zeros_word k : is_word (zeros (S k)).
Proof.
  split; [discriminate|]. split; [|reflexivity]. induction k as [|k IH]; [reflexivity|].
  change (zeros (S (S k))) with (String "0" (zeros (S k))). exact IH.
Qed.
Lemma zeros_length k : String.length (zeros k) = k.
Proof. induction k as [|k IH]; [reflexivity|]. cbn [zeros String.length]. now rewrite IH. Qed.
Fixpoint place (t : Tok) (l : list Tok) : nat := match l with [] => 0%nat | a :: r => if tok_dec a t then 0%nat else S (place t r) end.
Lemma place_nth t l : In t l -> nth (place t l) l TBad = t.
Proof. induction l as [|a l IH]; intros I; [destruct I|]. cbn [place]. destruct (tok_dec a t); [exact e|]. destruct I as [I|I]; [contradiction|]. exact (IH I). Qed.

(** For every file there is a way to write its numbers that can be read again. *)
Lemma legible_file (file : list Line) : exists show parse, show (TInt 0) = "0" /\
  forall ts t, In (LData ts) file -> In t ts -> legible show parse t.
Proof.
  set (L := TInt 0 :: flat_map tokens file).
  exists (fun t => zeros (S (place t L))), (fun s => nth (String.length s - 1) L TBad). split.
  - unfold L. cbn [place]. destruct (tok_dec (TInt 0) (TInt 0)); [reflexivity|congruence].
  - intros ts t I J. split; [apply zeros_word|]. rewrite zeros_length. replace (S (place t L) - 1)%nat with (place t L) by lia.
    apply place_nth. right. apply in_flat_map. exists (LData ts). split; [exact I|exact J].
Qed.

Example C99_case : exists w' file show parse,
  write_list "mm" "g4beamline_bl_track_file_2" (wrun ex_beam) [0; 1; 2]%nat None = (w', inr file) /\
  (forall test n (c : RCtx), read_text parse "g4beamline_bl_track_file_2" c test n (text_of show file)
     = new_from_read_builtin "g4beamline_bl_track_file_2" c test n [file]) /\
  forall part rest (c : RCtx), text_of show file = (part ++ rest)%string ->
    exists sorted done more hits, by_station (wrun ex_beam) [0; 1; 2]%nat sorted /\ sorted = done ++ more /\
      reloaded "g4beamline_bl_track_file_2" (wrun ex_beam) c done hits /\
      read_text parse "g4beamline_bl_track_file_2" c (fun _ => true) (-1) part = inr hits.
Proof.
  assert (F : In "g4beamline_bl_track_file_2" text_formats) by (cbn; tauto).
  assert (H : forall l, In l [0; 1; 2]%nat -> is_hit (wrun ex_beam) l).
  { intros l [<-|[<-|[<-|[]]]]; (eapply (is_hit_of_get _ _ _ "spill"); vm_compute; reflexivity). }
  destruct (C28_file_written ex_beam "g4beamline_bl_track_file_2" [0; 1; 2]%nat None F H) as (file & w' & _ & _ & _ & E & _).
  destruct (legible_file file) as (show & parse & Z & Lg). exists w', file, show, parse. split; [exact E|]. split.
  - intros test n c. exact (C99_whole ex_beam _ _ None w' file show parse c test n F H eq_refl E Lg).
  - intros part rest c T. destruct (C99_kept ex_beam _ None w' file show parse c part rest H eq_refl E Lg Z T) as (s & d & m & h & A & B & C & _ & G).
    exists s, d, m, h. auto.
Qed.

(** ---- the words of a line ---- *)
Lemma split_blanks g : forall r, blanks g -> split_from "" (g +++ r) = split_from "" r.
Proof.
  induction g as [|c g IH]; intros r B; [reflexivity|]. inversion B as [|? ? C D]; subst.
  change (String c g +++ r) with (String c (g +++ r)). cbn [split_from].
  replace (is_space c) with true by (destruct C as [<-|[<-|[<-|[<-|[]]]]]; reflexivity). exact (IH r D).
Qed.
Lemma split_char a : forall cur c r, blank_in a = false -> cur +++ a <> "" -> blank_char c ->
  split_from cur (a +++ String c r) = (cur +++ a) :: split_from "" r.
Proof.
  induction a as [|x a IH]; intros cur c r H N C.
  - change ("" +++ String c r) with (String c r). cbn [split_from]. replace (is_space c) with true by (destruct C as [<-|[<-|[<-|[<-|[]]]]]; reflexivity).
    rewrite append_nil in N. rewrite append_nil. destruct (String.eqb_spec cur ""); [contradiction|reflexivity].
  - apply blank_space in H. destruct H as [X H]. change (String x a +++ String c r) with (String x (a +++ String c r)). cbn [split_from]. rewrite X.
    rewrite IH; [rewrite append_assoc; reflexivity|exact H| |exact C]. rewrite append_assoc. exact N.
Qed.

(** A line is read as its words, in their order, however many blanks (spaces, tabs, line ends) stand
    before, between and after them; no word is made of nothing. *)
Theorem C99_words : forall parse ws s, spaced ws s -> parse_line parse s = LData (map parse ws).
Proof.
  intros parse ws s H. unfold parse_line, split_ws. do 2 f_equal. induction H as [g B|g w B N W|g w c ws t B N W C _ IH].
  - rewrite <- (append_nil g). rewrite (split_blanks g "" B). reflexivity.
  - rewrite (split_blanks g w B). rewrite (split_last w "" W). unfold opt. change ("" +++ w) with w. destruct (String.eqb_spec w ""); [contradiction|reflexivity].
  - rewrite (split_blanks g _ B). rewrite (split_char w "" c t W N C). change ("" +++ w) with w. now rewrite IH.
Qed.
Print Assumptions C99_words.

(** A line by hand, with blanks in front, two between the numbers and one at the end. *)
Example C99_words_ex : spaced ["1"; "0.5"] "  1  0.5 " /\ parse_line ex_parse "  1  0.5 " = LData [TInt 1; TNum (1 / 2)].
Proof.
  assert (S : spaced ["1"; "0.5"] "  1  0.5 ").
  { apply (spaced_next "  " "1" " "%char ["0.5"] " 0.5 "); [repeat constructor|discriminate|reflexivity|now left|].
    apply (spaced_next " " "0.5" " "%char [] ""); [repeat constructor|discriminate|reflexivity|now left|constructor; constructor]. }
  split; [exact S|]. exact (C99_words ex_parse _ _ S).
Qed.
