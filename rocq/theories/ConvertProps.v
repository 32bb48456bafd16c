(** Property C88: the file converter. *)
From Coq Require Import Reals ZArith NArith String Ascii List Bool Lia Lra.
From Verif Require Import Num WeightModel WeightProofs HitcoreModel HitcoreSpec HitcoreProofs
  PyLibModel PyLibProofs BunchModel BunchSpec BunchProofs HitPyModel HitPySpec HitPyProofs TableModel
  MomentModel BunchNumModel MomentSpec MomentProofs StatProofs CommonModel CommonSpec
  CommonProofs GridProofs CommonProps MomentProps EllipseModel EllipseSpec DetProofs MatProofs EllipseProofs
  TwissProofs TwissProps TransformModel TransformSpec TransformProofs TransformProps
  BunchProps IOModel IOSpec IOProps LoadModel LoadSpec UserIOModel LoadProps ConvertModel ConvertSpec ConvertProofs.
Import ListNotations.
Open Scope string_scope.
Open Scope list_scope.
Open Scope R_scope.

(** ---- the control file as text ---- *)

(** C88.  What follows # or ! on a line changes nothing. *)
Theorem C88_comments : forall pre l c r post, In c ["#"; "!"]%char ->
  read_control (pre ++ (l ++ String c r)%string :: post) = read_control (pre ++ l :: post).
Proof.
  intros pre l c r post C. rewrite !read_control_app. f_equal. unfold read_control. cbn [map].
  rewrite comment_words by auto. reflexivity.
Qed.
Print Assumptions C88_comments.

(** C88.  The lines are those that hold a word, each the list of its words. *)
Theorem C88_words : forall lines wss, Forall2 holds wss lines ->
  read_control lines = filter (fun ws => match ws with [] => false | _ => true end) wss.
Proof.
  induction 1 as [|ws l wss lines H F IH]; [reflexivity|]. unfold read_control in *. cbn [map filter].
  rewrite (holds_words ws l H), IH. destruct ws; reflexivity.
Qed.
Print Assumptions C88_words.

Example C88_words_ex :
  read_control ["file_in  a.dat ! the input"; "# nothing"; ""; "translate	x 2"] = [["file_in"; "a.dat"]; ["translate"; "x"; "2"]] /\
  holds ["translate"; "x"; "2"] "translate	x 2" /\ holds [] "  ".
Proof.
  split; [reflexivity|]. split.
  - apply (holds_word "" "translate" "009" ["x"; "2"] "x 2"); [exact I|discriminate| |cbn; tauto|].
    { cbn [every]. unfold printed. cbn [N_of_ascii N_of_digits]. repeat split; try lia; discriminate. }
    apply (holds_word "" "x" " " ["2"] "2"); [exact I|discriminate| |cbn; tauto|].
    { cbn [every]. unfold printed. cbn [N_of_ascii N_of_digits]. repeat split; try lia; discriminate. }
    apply (holds_last "" "2"); [exact I|discriminate|].
    cbn [every]. unfold printed. cbn [N_of_ascii N_of_digits]. repeat split; try lia; discriminate.
  - apply holds_end. cbn [every]. unfold blank. cbn [In]. tauto.
Qed.

(** ---- the steps depend on the lines of each keyword only ---- *)

Lemma existsb_lines k ls : existsb (is_key k) ls = match lines_with k ls with [] => false | _ => true end.
Proof.
  induction ls as [|l ls IH]; [reflexivity|]. rewrite lines_with_cons. cbn [existsb].
  destruct (is_key k l); cbn [orb]; auto.
Qed.
Lemma existsb_or {A} (f g : A -> bool) l : existsb (fun x => f x || g x)%bool l = (existsb f l || existsb g l)%bool.
Proof.
  induction l as [|a l IH]; [reflexivity|]. cbn [existsb]. rewrite IH.
  destruct (f a), (g a), (existsb f l), (existsb g l); reflexivity.
Qed.

Definition agree (c1 c2 : list (list string)) : Prop := forall k, In k keywords -> lines_with k c1 = lines_with k c2.

Lemma plots_agree c1 c2 b : agree c1 c2 -> plots c1 b = plots c2 b.
Proof.
  intros A. unfold plots. destruct b; rewrite !existsb_or, !existsb_lines, !A by (cbn; tauto); reflexivity.
Qed.

Lemma nodup_app {A} (x y : list A) : NoDup (x ++ y) -> NoDup x /\ NoDup y.
Proof.
  induction x as [|a x IH]; cbn [app]; intros N; [split; [constructor|exact N]|].
  inversion N as [|? ? N1 N2]; subst. destruct (IH N2). split; auto. constructor; auto.
  intros I. apply N1, in_app_iff. auto.
Qed.
Lemma nodup_part {A B} (f : A -> list B) d e : In e d -> NoDup (flat_map f d) -> NoDup (f e).
Proof.
  induction d as [|a d IH]; intros I N; [destruct I|]. destruct I as [->|I]; cbn [flat_map] in N; apply nodup_app in N; tauto.
Qed.

Lemma target_swap flt ls a b x : target_at flt ls a b x -> target_at flt ls b a x.
Proof.
  intros [[P1 P2]|(p & l & q & t & P1 & P2 & P3 & P4 & P5)].
  - left. split; [|exact P2]. intros l I N. apply (P1 l I). unfold names in *. tauto.
  - right. exists p, l, q, t. unfold names in *. split; [exact P1|]. split; [tauto|]. split; [exact P3|]. split; [exact P4|].
    intros l' I N. apply (P5 l' I). tauto.
Qed.

Lemma option_shape a : before "=" a = "-c" -> a = "-c" \/ exists name, a = ("-c=" ++ name)%string.
Proof.
  destruct a as [|x [|y r]]; cbn [before]; [discriminate| |].
  { destruct (Ascii.eqb x "="); discriminate. }
  destruct (Ascii.eqb x "="); [discriminate|]. destruct (Ascii.eqb y "="); [discriminate|].
  intros E. inversion E as [[E1 E2 E3]]. subst. destruct r as [|z r]; [left; reflexivity|]. cbn [before] in E3.
  destruct (Ascii.eqb_spec z "="); [|discriminate]. subst. right. exists r. reflexivity.
Qed.

Section Props.
  Variable flt : string -> option R.
  Variable int : string -> option Z.
  Variable glob : string -> list (list Line).
  Variable extra : RWorld -> list nat -> string -> nat -> option RVal.
  Variable eigh : Matrix -> option (list R * Matrix).
  Variable inv : Matrix -> option Matrix.

  Lemma read_agree w c1 c2 w1 b : agree c1 c2 ->
    read_input int glob extra w c1 = (w1, inr b) -> read_input int glob extra w c2 = (w1, inr b).
  Proof.
    intros A. unfold read_input. destruct (over (input_line int) ("", "", None) c1) as [|[[f m] s]] eqn:E; [discriminate|].
    apply input_split in E. rewrite !A in E by (cbn; tauto). apply input_split in E. rewrite E. auto.
  Qed.

  Lemma rotate_agree w b c1 c2 w1 : agree c1 c2 ->
    rotate flt extra eigh inv w b c1 = (w1, None) -> rotate flt extra eigh inv w b c2 = (w1, None).
  Proof.
    intros A. unfold rotate. destruct (over (rotate_line flt) ([], []) c1) as [|[ks o]] eqn:E; [discriminate|].
    apply rotate_split in E. unfold rotated in E. rewrite !A in E by (cbn; tauto). apply rotate_split in E. rewrite E.
    assert (C : over (covariance_line flt ks) (fun _ _ => 0) c1 = over (covariance_line flt ks) (fun _ _ => 0) c2).
    { rewrite (over_filter "covariance" _ c1), (over_filter "covariance" _ c2).
      - rewrite A by (cbn; tauto). reflexivity.
      - intros m l K. unfold covariance_line. rewrite K. reflexivity.
      - intros m l K. unfold covariance_line. rewrite K. reflexivity. }
    rewrite C. auto.
  Qed.

  Lemma translate_agree w b c1 c2 : agree c1 c2 -> translate flt w b c1 = translate flt w b c2.
  Proof.
    intros A. unfold translate.
    rewrite (over_filter "translate" _ c1), (over_filter "translate" _ c2).
    - rewrite A by (cbn; tauto). reflexivity.
    - intros m l K. unfold translate_line. rewrite K. reflexivity.
    - intros m l K. unfold translate_line. rewrite K. reflexivity.
  Qed.

  Lemma shell_first w b ls : mass_shell_condition w b ls =
    match lines_with "mass_shell_condition" ls with
    | [] => (w, None)
    | l :: _ => match nth_error l 1 with
                | None => (w, Some CIndexError)
                | Some k => match on_hits (shell_hit k) w (b_hits b) with
                            | (w', Some e) => (w', Some (CHit e))
                            | (w', None) => (w', None)
                            end
                end
    end.
  Proof.
    induction ls as [|l ls IH]; [reflexivity|]. rewrite lines_with_cons. cbn [mass_shell_condition].
    destruct (is_key "mass_shell_condition" l); [|exact IH]. unfold word. destruct (nth_error l 1); reflexivity.
  Qed.

  Lemma write_agree g4 w b c1 c2 w1 out : agree c1 c2 ->
    write_output g4 w b c1 = (w1, inr out) -> write_output g4 w b c2 = (w1, inr out).
  Proof.
    intros A. unfold write_output. destruct (over output_line ("", "") c1) as [|[f m]] eqn:E; [discriminate|].
    apply output_split in E. rewrite !A in E by (cbn; tauto). apply output_split in E. rewrite E. auto.
  Qed.

  (** C88.  The order of lines with different keywords does not matter, and other lines are ignored: if
      one control file leads to an output file, so does the other, and to the same. *)
  Theorem C88_keywords : forall g4 w c1 c2 w' out,
    (forall k, In k keywords -> lines_with k c1 = lines_with k c2) ->
    convert flt int glob extra eigh inv g4 w c1 = (w', inr out) ->
    convert flt int glob extra eigh inv g4 w c2 = (w', inr out).
  Proof.
    intros g4 w c1 c2 w' out A. unfold convert.
    destruct (read_input int glob extra w c1) as [w1 [|b]] eqn:E1; [discriminate|].
    rewrite (read_agree _ _ _ _ _ A E1), <- (plots_agree _ _ true A). destruct (plots c1 true); [discriminate|].
    destruct (rotate flt extra eigh inv w1 b c1) as [w2 [|]] eqn:E2; [discriminate|].
    rewrite (rotate_agree _ _ _ _ _ A E2), <- (translate_agree _ _ _ _ A).
    destruct (translate flt w2 b c1) as [w3 [|]]; [discriminate|].
    rewrite !shell_first, <- (A "mass_shell_condition") by (cbn; tauto).
    destruct (match lines_with "mass_shell_condition" c1 with [] => _ | _ => _ end) as [w4 [|]]; [discriminate|].
    rewrite <- (plots_agree _ _ false A). destruct (plots c1 false); [discriminate|].
    apply write_agree; auto.
  Qed.

  (** ---- what a conversion does ---- *)

  (** The station asked for. *)
  Definition station_wanted (ls : list (list string)) (o : option Z) : Prop :=
    match o with
    | None => lines_with "station_in" ls = []
    | Some z => exists r l s, lines_with "station_in" ls = r ++ [l] /\ nth_error l 1 = Some s /\ int s = Some z
    end.

  Lemma station_spec ls o : over (station_of int) None (lines_with "station_in" ls) = inr o -> station_wanted ls o.
  Proof.
    unfold station_wanted. generalize (lines_with "station_in" ls) as fs. intros fs. destruct fs as [|l fs] using rev_ind.
    - cbn [over]. intros E. inversion E. reflexivity.
    - rewrite over_app. destruct (over (station_of int) None fs); cbn [cbind over]; [discriminate|]. unfold station_of, word.
      destruct (nth_error l 1) as [s0|] eqn:E; cbn [cbind]; [|discriminate]. unfold to_int.
      destruct (int s0) as [z|] eqn:Z; cbn [cbind]; [|discriminate]. intros E'. inversion E'. exists fs, l, s0. auto.
  Qed.

  (** C88.  The hits read: those of the last input file named, in the last format named, and only those
      of the station if one is given; they are new, and no other hit changes. *)
  Theorem C88_input : forall (q : list (WOp RNum)) ls w' b,
    read_input int glob extra (wrun q) ls = (w', inr b) ->
    exists fin fmt o hs, setting_of ls "file_in" "" fin /\ setting_of ls "format_in" "" fmt /\ station_wanted ls o /\
      new_from_read_builtin fmt (cur_ctx (wrun q)) (fun _ => true) (-1) (glob fin) = inr hs /\
      hits_kept (wrun q) w' /\ new_hits (wrun q) w' (b_hits b) /\ in_step b /\
      Forall2 (fun l h => has_state w' l (h, cur_ctx (wrun q))) (b_hits b)
        (match o with
         | None => hs
         | Some z => filter (fun h => Z.eqb (int_reading (cur_ctx (wrun q)) "station" h) z) hs
         end).
  Proof.
    intros q ls w' b. unfold read_input.
    destruct (over (input_line int) ("", "", None) ls) as [|[[fin fmt] o]] eqn:E; [discriminate|].
    apply input_split in E. destruct E as (E1 & E2 & E3). intros E. exists fin, fmt, o.
    destruct (new_from_read_builtin fmt (cur_ctx (wrun q)) (fun _ => true) (-1) (glob fin)) as [e|hs] eqn:N.
    { exfalso. destruct (C80_errors q extra fmt (glob fin) "station" (fun _ => true) (-1) e N) as (A & B).
      destruct o as [z|]; [rewrite (proj1 (B eq_refl)) in E|rewrite A in E]; discriminate. }
    exists hs. do 2 (split; [apply second_setting; auto|]). split; [apply station_spec; auto|]. split; [reflexivity|].
    destruct o as [z|].
    - assert (K : stored "station") by (right; vm_compute; tauto).
      destruct (C80_dict q extra fmt (glob fin) "station" (fun _ => true) hs K N)
        as (w2 & d & D & Hk & Nd & [Nh1 Nh2] & Z1 & Z2).
      rewrite D in E. destruct (find (fun p => Z.eqb (fst p) z) d) as [[z' b']|] eqn:F; [|discriminate].
      inversion E; subst. apply find_some in F. cbn [fst] in F. destruct F as [F1 F2]. apply Z.eqb_eq in F2. subst z'.
      destruct (Z2 z b F1) as [Z3 Z4]. split; [exact Hk|]. split; [|split; [exact Z3|exact Z4]]. split.
      + apply (nodup_part (fun e : Z * Bunch => b_hits (snd e)) d (z, b)); auto.
      + intros l I. apply Nh2, in_flat_map. exists (z, b). auto.
    - destruct (C80_load q fmt (fun _ => true) (-1) (glob fin) hs N) as (w2 & b2 & L & S & Hk & Hn & G).
      rewrite L in E. inversion E; subst. auto.
  Qed.

  (** C88.  The calls of a conversion that succeeds, and the arguments the lines give them.  (The
      origin is the translation of transform_to, see C88_origin_refuted.) *)
  Theorem C88_steps : forall g4 w ls w' name out,
    convert flt int glob extra eigh inv g4 w ls = (w', inr (name, out)) ->
    exists w1 b w2 w3 w4 fmt,
      read_input int glob extra w ls = (w1, inr b) /\
      (forall k, In k plot_keywords -> lines_with k ls = []) /\
      ((List.length (rotated ls) <= 1)%nat /\ w2 = w1 \/
       exists target o, square (List.length (rotated ls)) target /\
         (forall v, value_of flt (origins ls) v (entry o v)) /\
         (NoDup (rotated ls) -> forall i j a c, nth_error (rotated ls) i = Some a -> nth_error (rotated ls) j = Some c ->
            target_at flt ls a c (ent target i j)) /\
         transform_to extra eigh inv no_fixed w1 b (rotated ls) target o [] "" = inr (w2, None)) /\
      (exists d, NoDup (map fst d) /\ (forall v, In v (map fst d) <-> In v (map fst (shifts ls))) /\
         (forall v, value_of flt (shifts ls) v (entry d v)) /\ bunch_translate w2 b (floats d) "" = (w3, None)) /\
      (lines_with "mass_shell_condition" ls = [] /\ w4 = w3 \/
       exists l r k, lines_with "mass_shell_condition" ls = l :: r /\ nth_error l 1 = Some k /\
         on_hits (shell_hit k) w3 (b_hits b) = (w4, None)) /\
      setting_of ls "file_out" "" name /\ setting_of ls "format_out" "" fmt /\
      hit_write_builtin g4 w4 b fmt None = (w', inr out).
  Proof.
    intros g4 w ls w' name out. unfold convert.
    destruct (read_input int glob extra w ls) as [w1 [|b]] eqn:E1; [discriminate|].
    destruct (plots ls true) eqn:P1; [discriminate|].
    destruct (rotate flt extra eigh inv w1 b ls) as [w2 [|]] eqn:E2; [discriminate|].
    destruct (translate flt w2 b ls) as [w3 [|]] eqn:E3; [discriminate|].
    destruct (mass_shell_condition w3 b ls) as [w4 [|]] eqn:E4; [discriminate|].
    destruct (plots ls false) eqn:P2; [discriminate|]. intros E5.
    unfold write_output in E5. destruct (over output_line ("", "") ls) as [|[fo fmt]] eqn:O; [discriminate|].
    apply output_split in O. destruct O as (O1 & O2).
    destruct (hit_write_builtin g4 w4 b fmt None) as [w5 [|o5]] eqn:E6; [discriminate|].
    assert (w5 = w') by congruence. assert (fo = name) by congruence. assert (o5 = out) by congruence. subst w5 fo o5. clear E5.
    exists w1, b, w2, w3, w4, fmt. split; [reflexivity|].
    split; [|split; [|split; [|split; [|split; [|split]]]]].
    - unfold plots in P1, P2.
      destruct (existsb _ ls) eqn:Q1 in P1; [discriminate|]. destruct (existsb _ ls) eqn:Q2 in P2; [discriminate|].
      rewrite existsb_or, !existsb_lines in Q1, Q2. apply orb_false_iff in Q1, Q2. destruct Q1 as [Q1 Q3], Q2 as [Q2 Q4].
      intros k [<-|[<-|[<-|[<-|[]]]]].
      + destruct (lines_with "histogram_in" ls); [reflexivity|discriminate].
      + destruct (lines_with "histogram_out" ls); [reflexivity|discriminate].
      + destruct (lines_with "scatter_in" ls); [reflexivity|discriminate].
      + destruct (lines_with "scatter_out" ls); [reflexivity|discriminate].
    - unfold rotate in E2. destruct (over (rotate_line flt) ([], []) ls) as [|[ks o]] eqn:R; [discriminate|].
      apply rotate_split in R. cbn [app] in R. destruct R as [-> R].
      destruct (Nat.leb_spec (List.length (rotated ls)) 1) as [L|L]; [left; split; [exact L|congruence]|].
      destruct (over (covariance_line flt (rotated ls)) (fun _ _ => 0) ls) as [|m] eqn:M; [discriminate|].
      right. exists (matrix_of (List.length (rotated ls)) m), o.
      destruct (matrix_of_ent (List.length (rotated ls)) m) as [M1 M2].
      split; [exact M1|]. split; [|split].
      + intros v. destruct (origin_lines_spec flt ls [] o R) as (qs & Q1 & ->). apply reads_value. exact Q1.
      + intros ND i j a c A C. rewrite M2; [|apply nth_error_Some; congruence..]. apply (target_spec flt (rotated ls) ls ND m M); auto.
      + destruct (transform_to extra eigh inv no_fixed w1 b (rotated ls) (matrix_of (List.length (rotated ls)) m) o [] "") as [e|[w5 [e|]]]; [discriminate|discriminate|].
        destruct (covariance_matrix extra no_fixed w5 b (rotated ls) (float_values o)); [discriminate|congruence].
    - unfold translate in E3. destruct (over (translate_line flt) [] ls) as [|d] eqn:T; [discriminate|].
      destruct (translate_lines_spec flt ls [] d T) as (qs & Q1 & Q2). exists d.
      split; [rewrite Q2; apply put_all_nodup; apply NoDup_nil|]. split; [|split].
      + intros v. rewrite Q2, put_all_keys. cbn [map In]. rewrite (reads_keys flt _ _ Q1). tauto.
      + intros v. rewrite Q2. apply reads_value. exact Q1.
      + change (floats d) with (float_values d). destruct (bunch_translate w2 b (float_values d) "") as [w5 [|]]; congruence.
    - rewrite shell_first in E4. destruct (lines_with "mass_shell_condition" ls) as [|l r]; [left; split; [reflexivity|congruence]|].
      right. destruct (nth_error l 1) as [k|] eqn:K; [|discriminate]. exists l, r, k. split; [reflexivity|]. split; [exact K|].
      destruct (on_hits (shell_hit k) w3 (b_hits b)) as [w5 [|]]; congruence.
    - apply second_setting; auto.
    - apply second_setting; auto.
    - exact E6.
  Qed.

  (** C88.  Plots: as soon as one is asked for, nothing is written. *)
  Theorem C88_plots_refuted : forall g4 w ls, (exists k, In k plot_keywords /\ lines_with k ls <> []) ->
    ~ exists w' out, convert flt int glob extra eigh inv g4 w ls = (w', inr out).
  Proof.
    intros g4 w ls (k & K & N) (w' & [name out] & E).
    destruct (C88_steps g4 w ls w' name out E) as (_ & _ & _ & _ & _ & _ & _ & P & _). auto.
  Qed.

  (** C88.  translate: each variable of each hit is shifted by the last value given for it. *)
  Theorem C88_translate : forall w b ls,
    NoDup (b_hits b) -> (forall l, In l (b_hits b) -> is_hit w l) ->
    (forall l, In l (lines_with "translate" ls) -> Nat.odd (List.length l) = true) ->
    (forall v s, In (v, s) (shifts ls) -> coordinate v /\ flt s <> None) ->
    exists w', translate flt w b ls = (w', None) /\
      (forall v x l, In v stored_floats -> In l (b_hits b) -> value_of flt (shifts ls) v x ->
         stored_val w' v l = stored_val w v l + x) /\
      (forall l, ~ In l (b_hits b) -> forall n, hit_get w' l n = hit_get w l n).
  Proof.
    intros w b ls Hnd Hh Hodd Hv.
    destruct (translate_total flt ls Hodd (fun v s I => proj2 (Hv v s I))) as (d & D).
    destruct (translate_lines_spec flt ls [] d D) as (qs & Q1 & Q2).
    assert (Kd : forall v, In v (map fst d) -> coordinate v).
    { intros v I. rewrite Q2, put_all_keys in I. destruct I as [[]|I]. apply (reads_keys flt _ _ Q1) in I.
      apply in_map_iff in I. destruct I as ([v' s] & <- & I). apply (Hv v' s I). }
    assert (Nd : NoDup (map fst d)) by (rewrite Q2; apply put_all_nodup; apply NoDup_nil).
    destruct (bunch_translate_spec w b d Hnd Hh) as (w' & W1 & _ & _ & _ & W5 & W6).
    { split; [exact Nd|]. intros k I. apply Kd, I. }
    { intros I. apply Kd in I. destruct I as [_ I]. congruence. }
    exists w'. unfold translate. rewrite D. change (float_values d) with (floats d). rewrite W1. split; [reflexivity|].
    split; [|exact W5]. intros v x l V L X. rewrite W6 by auto. f_equal.
    apply (value_unique flt (shifts ls) v); auto. rewrite Q2. apply reads_value. exact Q1.
  Qed.

  (** C88.  mass_shell_condition: the first such line counts; with energy all hits end on shell, and
      nothing but their energy changes. *)
  Theorem C88_shell : forall w b ls l r,
    NoDup (b_hits b) -> (forall l, In l (b_hits b) -> is_hit w l) ->
    lines_with "mass_shell_condition" ls = l :: r -> nth_error l 1 = Some "energy" ->
    exists w', mass_shell_condition w b ls = (w', None) /\
      (forall l, ~ In l (b_hits b) -> w_hits w' l = w_hits w l) /\
      (forall l h, In l (b_hits b) -> w_hits w l = Some h -> exists h', w_hits w' l = Some h' /\ on_shell h' /\
         0 <= h_dbl h' Venergy /\ same_except [Venergy] h h').
  Proof.
    intros w b ls l r Hnd Hh E K.
    destruct (on_hits_spec (shell_hit "energy") (b_hits b) w Hnd Hh) as (w' & W1 & _ & _ & W4 & W5).
    { intros h. unfold shell_hit. split; reflexivity. }
    exists w'. rewrite shell_first, E, K, W1. split; [reflexivity|]. split; [exact W4|].
    intros l0 h I Hl. exists (fst (fst (shell_hit "energy" (h, cur_ctx w)))). split; [apply W5; auto|].
    pose proof (shell_energy h) as C. unfold shell_hit. cbn [fst snd].
    destruct (mass_shell h "energy") as [h' res]. cbn [fst snd]. tauto.
  Qed.

  (** ---- rotation ---- *)

  (** Lines that rotate accepts, and the target matrix they give. *)
  Definition rotation_lines (ls : list (list string)) (target : Matrix) : Prop :=
    let ks := rotated ls in
    (2 <= List.length ks)%nat /\ square (List.length ks) target /\
    (forall l, In l (lines_with "origin" ls) -> exists k v s r, l = k :: v :: s :: r /\ flt s <> None) /\
    (forall l, In l (lines_with "covariance" ls) ->
       exists k a c s r, l = k :: a :: c :: s :: r /\ In a ks /\ In c ks /\ flt s <> None) /\
    (forall i j, (i < List.length ks)%nat -> (j < List.length ks)%nat ->
       target_at flt ls (nth i ks "") (nth j ks "") (ent target i j)).

  Lemma rotate_spec w b ls target : rotation_lines ls target ->
    setting extra eigh inv w b (rotated ls) target [] ->
    let ks := rotated ls in let n := List.length ks in
    exists w' m k o, rotate flt extra eigh inv w b ls = (w', None) /\
      (forall v, value_of flt (origins ls) v (entry o v)) /\
      transform_to extra eigh inv no_fixed w b ks target o [] "" = inr (w', None) /\
      bunch_abelian w b ks m o [] "" = (w', None) /\ usable w' b /\ square n m /\ det m * det m = 1 /\ 0 < k /\
      (forall i j, (i < n)%nat -> (j < n)%nat ->
         covariance w' (b_hits b) (stored_val w') (nth i ks "") (nth j ks "") = k * ent target i j).
  Proof.
    intros (L & Sq & Ho & Hc & Ht) S ks n. fold ks n in L, Sq, Ht.
    destruct (origin_total flt ls Ho) as (o & O). destruct (target_total flt ks ls Hc) as (m0 & M0).
    destruct (transform_spec extra eigh inv w b ks target o [] S) as (w' & m & k & _ & T & A & U' & M & D & K & _).
    destruct (C70_target extra eigh inv w b ks target o [] S) as (w2 & k2 & T2 & _ & K2 & C2 & _).
    { intros v _ []. }
    assert (w2 = w') by congruence. subst w2.
    exists w', m, k2, o. split; [|split; [|split; [exact T|split; [exact A|split; [exact U'|split; [exact M|split; [exact D|split; [exact K2|exact C2]]]]]]]].
    - unfold rotate.
      assert (R : over (rotate_line flt) ([], []) ls = inr (ks, o)) by (apply rotate_split; auto).
      rewrite R. destruct (Nat.leb_spec (List.length ks) 1) as [Q|_]; [unfold n in L; lia|].
      rewrite M0. assert (E : matrix_of (List.length ks) m0 = target).
      { destruct (matrix_of_ent (List.length ks) m0) as [M1 M2]. apply (square_ext n); auto. intros i j Hi Hj.
        rewrite M2 by auto. eapply target_unique; [|apply Ht; auto].
        apply (target_spec flt ks ls); auto; [apply S|apply nth_error_nth'; auto..]. }
      rewrite E, T.
      destruct U' as (U1 & U2 & U3).
      assert (R0 : readings extra w' (b_hits b) ks (stored_val w')).
      { apply stored_readings; [apply U3|]. intros v I. destruct S as (_ & _ & _ & _ & Hk & _). apply Hk, I. }
      destruct (covariance_spec extra w' b ks (stored_val w') (float_values o) (centre w' (b_hits b) o) U1 U2 U3 R0) as (c & C & _).
      { intros v _. unfold centre. destruct (assoc_floats o v) as [[X Y]|[X Y]];
          destruct (in_dec string_dec v (map fst o)); try contradiction; auto. }
      rewrite C. reflexivity.
    - intros v. destruct (origin_lines_spec flt ls [] o O) as (qs & Q1 & ->). apply reads_value. exact Q1.
  Qed.

  (** C88.  rotate: the covariance matrix of the hits becomes a multiple of the target, which is
      symmetric, with the same determinant as before. *)
  Theorem C88_rotate : forall w b ls target, rotation_lines ls target ->
    setting extra eigh inv w b (rotated ls) target [] ->
    let ks := rotated ls in let n := List.length ks in
    exists w' k, rotate flt extra eigh inv w b ls = (w', None) /\ 0 < k /\
      (forall i j, (i < n)%nat -> (j < n)%nat ->
         covariance w' (b_hits b) (stored_val w') (nth i ks "") (nth j ks "") = k * ent target i j) /\
      k ^ n * det_n n (ent target) = det_n n (covariances w (b_hits b) (stored_val w) ks) /\
      (forall i j, (i < n)%nat -> (j < n)%nat -> ent target i j = ent target j i).
  Proof.
    intros w b ls target RL S ks n.
    destruct (rotate_spec w b ls target RL S) as (w' & m & k & o & R & _ & T & _ & _ & _ & _ & K & C).
    destruct (C70_target extra eigh inv w b ks target o [] S) as (w2 & k2 & T2 & U2 & K2 & C2 & D2).
    { intros v _ []. }
    assert (w2 = w') by (unfold ks in T2; congruence). subst w2.
    exists w', k2. split; [exact R|]. split; [exact K2|]. split; [exact C2|]. split; [exact D2|].
    destruct RL as (_ & _ & _ & _ & Ht). fold ks n in Ht. intros i j Hi Hj.
    eapply target_unique; [apply Ht; auto|]. apply target_swap. apply Ht; auto.
  Qed.

  (** C88.  The point given by origin lines is not the centre of the rotation: a hit that is there does
      not stay there, and a hit at 0 is moved there. *)
  Theorem C88_origin_refuted : forall w b ls target (o : string -> R), rotation_lines ls target ->
    setting extra eigh inv w b (rotated ls) target [] ->
    (forall v, value_of flt (origins ls) v (o v)) -> (exists v, In v (rotated ls) /\ o v <> 0) ->
    exists w', rotate flt extra eigh inv w b ls = (w', None) /\
      (forall l, In l (b_hits b) -> (forall v, In v (rotated ls) -> stored_val w v l = o v) ->
         exists v, In v (rotated ls) /\ stored_val w' v l <> o v) /\
      (forall l, In l (b_hits b) -> (forall v, In v (rotated ls) -> stored_val w v l = 0) ->
         forall v, In v (rotated ls) -> stored_val w' v l = o v).
  Proof.
    intros w b ls target o RL S Ho (v0 & V0 & N0).
    destruct (rotate_spec w b ls target RL S) as (w' & m & k & o' & R & O & T & A & _ & M & D & _).
    assert (Oo : forall v, entry o' v = o v) by (intros v; eapply value_unique; [apply O|apply Ho]).
    exists w'. split; [exact R|].
    destruct S as (U & Hn & Hk & Hne & Hc & _).
    destruct (bunch_abelian_spec w b (rotated ls) m o' [] Hn (proj1 (proj2 (proj2 U))) Hk Hc M) as (w2 & X1 & _ & _ & _ & _ & _ & X7).
    assert (w2 = w') by congruence. subst w2. set (ks := rotated ls) in *. set (n := List.length ks) in *.
    split.
    - intros l Il Hl.
      assert (Dc : (forall v, In v ks -> stored_val w' v l = o v) \/ exists v, In v ks /\ stored_val w' v l <> o v).
      { clear. induction ks as [|a ks IH]; [left; intros v []|].
        destruct (Req_dec (stored_val w' a l) (o a)) as [E|N]; [|right; exists a; split; [left; auto|auto]].
        destruct IH as [IH|(v & V & N)]; [left; intros v [<-|V]; auto|right; exists v; split; [right; auto|auto]]. }
      destruct Dc as [Eq|Ne]; [|exact Ne]. exfalso. apply N0.
      destruct (In_nth ks v0 "" V0) as (q & Q1 & Q2). rewrite <- Q2.
      apply (rows_independent n (tr (ent m)) (fun j => o (nth j ks ""))); auto.
      + change (det_n n (tr (ent m))) with (det_n n (fun i j => ent m j i)). rewrite (det_transpose n (ent m)).
        destruct M as [M _]. unfold det in D. rewrite M in D. intros Z. fold n in D. rewrite Z in D. lra.
      + intros j Hj. pose proof (X7 j (nth j ks "") l (nth_error_nth' ks "" Hj) Il) as E.
        rewrite Eq in E by (apply nth_In; auto). rewrite Oo in E. cbn [entry] in E.
        rewrite (sum_n_ext n _ (fun a => ent m j a * (stored_val w (nth a ks "") l - 0))).
        * lra.
        * intros a Ha. unfold tr. rewrite Hl by (apply nth_In; auto). ring.
    - intros l Il Hl v Iv. destruct (In_nth ks v "" Iv) as (q & Q1 & Q2).
      rewrite (X7 q v l) by (auto; rewrite <- Q2; apply nth_error_nth'; auto). rewrite Oo. cbn [entry].
      fold n. rewrite (sum_n_ext n _ (fun a => 0 * 0)).
      + rewrite sum_n_scale. ring.
      + intros a Ha. rewrite Hl by (apply nth_In; auto). ring.
  Qed.

  (** C88.  The exit status does not tell whether a file was written: it is 0 unless the first argument
      is not -c=name, and then nothing is done. *)
  Theorem C88_status : forall control g4 w argv0 args,
    let (out, status) := main flt int glob extra eigh inv control g4 w argv0 args in
    (status = 0%Z \/ status = 1%Z /\ out = None) /\
    (status = 0%Z <-> args = [] \/ exists name r, args = ("-c=" ++ name)%string :: r \/ args = "-c" :: r) /\
    (forall name, (args = [] /\ name = "file_convert.inp" \/ exists r, args = ("-c=" ++ name)%string :: r) ->
       contains argv0 "File_Convert" = true ->
       forall o, out = Some o <-> snd (file_convert flt int glob extra eigh inv control g4 w name) = inr o).
  Proof.
    intros control g4 w argv0 args. unfold main. cbv zeta.
    assert (Q : forall name, let (out, status) :=
        (if contains argv0 "File_Convert" then
           match snd (file_convert flt int glob extra eigh inv control g4 w name) with
           | inr out => (Some out, 0%Z) | inl _ => (None, 0%Z) end else (None, 0%Z)) in
        status = 0%Z /\ (contains argv0 "File_Convert" = true ->
          forall o, out = Some o <-> snd (file_convert flt int glob extra eigh inv control g4 w name) = inr o)).
    { intros name. destruct (contains argv0 "File_Convert"); [|split; [reflexivity|discriminate]].
      destruct (snd (file_convert _ _ _ _ _ _ _ _ _ _)) as [e|x]; (split; [reflexivity|]); intros _ o; split; congruence. }
    destruct args as [|a r].
    - specialize (Q "file_convert.inp"). destruct (if contains argv0 "File_Convert" then _ else _) as [out status].
      destruct Q as [-> Q]. split; [auto|]. split; [split; auto|]. intros name [[_ ->]|(r & X)]; [exact Q|discriminate].
    - destruct (String.eqb_spec (before "=" a) "-c") as [E|N].
      + specialize (Q (after "=" a)). destruct (if contains argv0 "File_Convert" then _ else _) as [out status].
        destruct Q as [-> Q]. split; [auto|]. split.
        * split; auto. intros _. right. destruct (option_shape a E) as [->|(name & ->)]; [exists "", r; right|exists name, r; left]; reflexivity.
        * intros name [[X _]|(r' & X)]; [discriminate|]. inversion X; subst. exact Q.
      + split; [auto|]. split.
        * split; [discriminate|]. intros [X|(name & r' & [X|X])]; [discriminate| |]; inversion X; subst; exfalso; apply N; reflexivity.
        * intros name [[X _]|(r' & X)]; [discriminate|]. inversion X; subst. exfalso. apply N. reflexivity.
  Qed.
End Props.
Print Assumptions C88_keywords.
Print Assumptions C88_input.
Print Assumptions C88_steps.
Print Assumptions C88_plots_refuted.
Print Assumptions C88_translate.
Print Assumptions C88_shell.
Print Assumptions C88_rotate.
Print Assumptions C88_origin_refuted.
Print Assumptions C88_status.

(** ---- cases ---- *)

Definition ex_flt (s : string) : option R :=
  if String.eqb s "2" then Some 2 else if String.eqb s "4" then Some 4 else if String.eqb s "5" then Some 5 else None.
Definition ex_int (s : string) : option Z := if String.eqb s "1" then Some 1%Z else None.

(** Rotation of four hits in x and px, about x = 2, where the first hit is; it is moved. *)
Definition ex_rotation : list (list string) :=
  [["origin"; "x"; "2"]; ["rotate"; "x"]; ["covariance"; "x"; "px"; "2"]; ["covariance"; "x"; "x"; "5"];
   ["rotate"; "px"]; ["covariance"; "px"; "px"; "5"]; ["covariance"; "px"; "x"; "4"]].
Lemma ex_rotation_lines : rotation_lines ex_flt ex_rotation [[5; 4]; [4; 5]].
Proof.
  split; [cbn; lia|]. split; [split; [reflexivity|intros r [<-|[<-|[]]]; reflexivity]|].
  split; [intros l [<-|[]]; repeat eexists; discriminate|].
  split.
  { intros l [<-|[<-|[<-|[<-|[]]]]]; do 5 eexists; (split; [reflexivity|]); cbn; (split; [tauto|split; [tauto|discriminate]]). }
  assert (N : forall a b l, In l (lines_with "covariance" ex_rotation) -> (nth 1 l "", nth 2 l "") <> (a, b) ->
    (nth 1 l "", nth 2 l "") <> (b, a) -> ~ names a b l).
  { intros a b l I N1 N2 [[A B]|[A B]]; destruct I as [<-|[<-|[<-|[<-|[]]]]]; cbn in *; congruence. }
  intros i j Hi Hj. change (rotated ex_rotation) with ["x"; "px"]. change (List.length (rotated ex_rotation)) with 2%nat in Hi, Hj.
  destruct i as [|[|i]]; [| |lia]; (destruct j as [|[|j]]; [| |lia]); cbn [nth ent]; right.
  - exists [["covariance"; "x"; "px"; "2"]], ["covariance"; "x"; "x"; "5"], [["covariance"; "px"; "px"; "5"]; ["covariance"; "px"; "x"; "4"]], "5".
    split; [reflexivity|]. split; [left; split; reflexivity|]. split; [reflexivity|]. split; [reflexivity|].
    intros l' I. apply N; [right; right; exact I|..]; destruct I as [<-|[<-|[]]]; discriminate.
  - exists [["covariance"; "x"; "px"; "2"]; ["covariance"; "x"; "x"; "5"]; ["covariance"; "px"; "px"; "5"]], ["covariance"; "px"; "x"; "4"], [], "4".
    split; [reflexivity|]. split; [right; split; reflexivity|]. split; [reflexivity|]. split; [reflexivity|]. intros l' [].
  - exists [["covariance"; "x"; "px"; "2"]; ["covariance"; "x"; "x"; "5"]; ["covariance"; "px"; "px"; "5"]], ["covariance"; "px"; "x"; "4"], [], "4".
    split; [reflexivity|]. split; [left; split; reflexivity|]. split; [reflexivity|]. split; [reflexivity|]. intros l' [].
  - exists [["covariance"; "x"; "px"; "2"]; ["covariance"; "x"; "x"; "5"]], ["covariance"; "px"; "px"; "5"], [["covariance"; "px"; "x"; "4"]], "5".
    split; [reflexivity|]. split; [left; split; reflexivity|]. split; [reflexivity|]. split; [reflexivity|].
    intros l' I. apply N; [right; right; right; exact I|..]; destruct I as [<-|[]]; discriminate.
Qed.

Example C88_rotate_ex :
  setting ex_extra ex_eigh ex_inv (wrun ex_four) ex_bunch4 (rotated ex_rotation) [[5; 4]; [4; 5]] [] /\
  exists w', rotate ex_flt ex_extra ex_eigh ex_inv (wrun ex_four) ex_bunch4 ex_rotation = (w', None) /\
    (forall v, In v ["x"; "px"] -> stored_val (wrun ex_four) v 0 = if String.eqb v "x" then 2 else 0) /\
    exists v, In v ["x"; "px"] /\ stored_val w' v 0 <> if String.eqb v "x" then 2 else 0.
Proof.
  assert (S : setting ex_extra ex_eigh ex_inv (wrun ex_four) ex_bunch4 (rotated ex_rotation) [[5; 4]; [4; 5]] []).
  { change (rotated ex_rotation) with ["x"; "px"]. apply ex_setting. intros v Hv. reflexivity. }
  split; [exact S|].
  assert (P : forall v, In v ["x"; "px"] -> stored_val (wrun ex_four) v 0 = if String.eqb v "x" then 2 else 0).
  { intros v [<-|[<-|[]]]; reflexivity. }
  destruct (C88_origin_refuted ex_flt ex_extra ex_eigh ex_inv (wrun ex_four) ex_bunch4 ex_rotation _
    (fun v => if String.eqb v "x" then 2 else 0) ex_rotation_lines S) as (w' & W1 & W2 & _).
  - intros v. change (origins ex_rotation) with [("x", "2")]. destruct (String.eqb_spec v "x") as [->|N].
    + exists (Some "2"). split; [exists [], []; split; [reflexivity|intros []]|reflexivity].
    + exists None. split; [cbn; intros [E|[]]; congruence|reflexivity].
  - exists "x". split; [cbn; tauto|]. cbn [String.eqb Ascii.eqb Bool.eqb]. lra.
  - exists w'. split; [exact W1|]. split; [exact P|]. apply (W2 0%nat); [cbn; tauto|exact P].
Qed.

(** A whole conversion of a file with two hits: x is shifted by 4, and the energies are recalculated.
    With a histogram, or with no control file, nothing is written, and the exit status is 0. *)
Definition ex_control : list string :=
  ["# convert"; "file_out b.dat"; "file_in  a.dat"; "format_in icool_for009"; "translate x 2 ! replaced";
   "format_out icool_for003"; "mass_shell_condition energy"; "translate  x 4"; "plot_format png"].
Example C88_convert_ex : exists file hs w' out, let glob name := if String.eqb name "a.dat" then [file] else [] in
  let run control := main ex_flt ex_int glob no_extra ex_eigh ex_inv
    (fun name => if String.eqb name "c.inp" then Some control else None) "mm" (wrun ex_beam) "./File_Convert.py" in
  new_from_read_builtin "icool_for009" (cur_ctx (wrun ex_beam)) (fun _ => true) (-1) [file] = inr hs /\ hs <> [] /\
  convert ex_flt ex_int glob no_extra ex_eigh ex_inv "mm" (wrun ex_beam) (read_control ex_control) = (w', inr ("b.dat", out)) /\
  run ex_control ["-c=c.inp"] = (Some ("b.dat", out), 0%Z) /\
  run (ex_control ++ ["histogram_out x mm"]) ["-c=c.inp"] = (None, 0%Z) /\
  run ex_control [] = (None, 0%Z) /\ run ex_control ["c.inp"] = (None, 1%Z).
Proof.
  destruct C80_case as (w0 & file & hs & wd & b1 & b2 & l1 & l2 & _ & N & D & _).
  set (glob := fun name => if String.eqb name "a.dat" then [file] else []).
  set (ls := read_control ex_control).
  assert (E : hs <> []).
  { intros ->. destruct (C80_list ex_beam no_extra "icool_for009" [file] "station" (fun _ => true) []) as (w2 & bs & zs & L & _ & _ & Z & F).
    - right. vm_compute. tauto.
    - exact N.
    - assert (X : bs = [b1; b2]) by congruence. rewrite X in F. inversion F as [|z ? zs' ? _ _ E1]. subst.
      destruct (proj1 (Z z) (or_introl eq_refl)) as (h & [] & _). }
  destruct (C80_load ex_beam "icool_for009" (fun _ => true) (-1) [file] hs N) as (w1 & b & L & S & Hk & [Hn1 Hn2] & G).
  assert (Rd : read_input ex_int glob no_extra (wrun ex_beam) ls = (w1, inr b)).
  { unfold read_input. change (over (input_line ex_int) ("", "", None) ls) with (@inr CErr Input ("a.dat", "icool_for009", None)).
    cbv iota beta. change (glob "a.dat") with [file]. rewrite L. reflexivity. }
  assert (Ro : rotate ex_flt no_extra ex_eigh ex_inv w1 b ls = (w1, None)) by reflexivity.
  destruct (C88_translate ex_flt w1 b ls Hn1 (fun l I => proj2 (Hn2 l I))) as (w2 & T & _).
  { change (lines_with "translate" ls) with [["translate"; "x"; "2"]; ["translate"; "x"; "4"]]. intros l [<-|[<-|[]]]; reflexivity. }
  { change (shifts ls) with [("x", "2"); ("x", "4")]. intros v s [I|[I|[]]]; inversion I; subst; (split; [split; [cbn; tauto|discriminate]|discriminate]). }
  assert (M : exists w3, mass_shell_condition w2 b ls = (w3, None)).
  { clear. rewrite shell_first. change (lines_with "mass_shell_condition" ls) with [["mass_shell_condition"; "energy"]]. cbn [nth_error].
    revert w2. induction (b_hits b) as [|l hits IH]; intros w2; [exists w2; reflexivity|]. cbn [on_hits].
    assert (Q : exists w4, on_hit (shell_hit "energy") w2 l = (w4, None)).
    { unfold on_hit. destruct (w_hits w2 l); [|eauto]. eexists. reflexivity. }
    destruct Q as (w4 & ->). apply IH. }
  destruct M as (w3 & M).
  assert (W : exists w' out, write_output "mm" w3 b ls = (w', inr ("b.dat", out))).
  { unfold write_output. change (over output_line ("", "") ls) with (@inr CErr (string * string) ("b.dat", "icool_for003")).
    cbv iota beta. unfold hit_write_builtin, write_list.
    change (negb (is_in "icool_for003" file_types)) with false. cbv iota.
    destruct (file_header "icool_for003" None) eqn:F; [|discriminate].
    destruct (write_loop "mm" "icool_for003" w3 None [] _) as [w5 o5]. eauto. }
  destruct W as (w' & out & W).
  assert (C : convert ex_flt ex_int glob no_extra ex_eigh ex_inv "mm" (wrun ex_beam) ls = (w', inr ("b.dat", out))).
  { unfold convert. rewrite Rd. change (plots ls true) with (@None CErr). rewrite Ro, T, M. change (plots ls false) with (@None CErr). exact W. }
  exists file, hs, w', out. cbv zeta. fold glob. split; [exact N|]. split; [exact E|]. split; [exact C|].
  split; [|split; [|split; reflexivity]].
  - unfold main. cbv zeta. change (contains "./File_Convert.py" "File_Convert") with true.
    change (String.eqb (before "=" "-c=c.inp") "-c") with true. cbv iota. unfold file_convert.
    change (after "=" "-c=c.inp") with "c.inp". cbv beta. change (String.eqb "c.inp" "c.inp") with true. cbv iota.
    fold ls. rewrite C. reflexivity.
  - unfold main. cbv zeta. change (contains "./File_Convert.py" "File_Convert") with true.
    change (String.eqb (before "=" "-c=c.inp") "-c") with true. cbv iota. unfold file_convert.
    change (after "=" "-c=c.inp") with "c.inp". cbv beta. change (String.eqb "c.inp" "c.inp") with true. cbv iota.
    destruct (convert ex_flt ex_int glob no_extra ex_eigh ex_inv "mm" (wrun ex_beam)
       (read_control (ex_control ++ ["histogram_out x mm"]))) as [wx [ex|ox]] eqn:X; [reflexivity|].
    exfalso. apply (C88_plots_refuted ex_flt ex_int glob no_extra ex_eigh ex_inv "mm" (wrun ex_beam)
       (read_control (ex_control ++ ["histogram_out x mm"]))); [|eauto].
    exists "histogram_out". split; [cbn; tauto|discriminate].
Qed.
