(** Model of the file converter, xboa/examples/File_Convert.py; line numbers refer to it.  Reading and
    writing of hits are those of IOModel, LoadModel and UserIOModel, so text formats only.

    Simplified: what is printed is left out.  The names of the control file and of the data files are
    looked up in two functions, [control] and [glob]; a control file is a list of lines of ASCII text.
    Python's float() and int() of a word, and numpy's eigh and inv, are parameters. *)
From Coq Require Import Reals ZArith List Bool String Ascii.
From Verif Require Import Num WeightModel HitcoreModel PyLibModel BunchModel HitPyModel TableModel
  MomentModel BunchNumModel MomentSpec IOModel LoadModel UserIOModel EllipseModel TransformModel.
Import ListNotations.
Open Scope string_scope.
Open Scope list_scope.

(** The exceptions.  [CPlot]: from a plot, AttributeError or whatever the plot raises first. *)
Inductive CErr := CIndexError | CValueError | CKeyError | CIO (e : LoadErr) | CWrite (e : IOErr)
  | CMoment (e : MErr) | CHit (e : PyErr) | CPlot | CNoControl.

(** ---- reading the control file --------------------------------------------------- *)

(** s.partition(c)[0]. *)
Fixpoint before (c : ascii) (s : string) : string :=
  match s with
  | "" => ""
  | String a r => if Ascii.eqb a c then "" else String a (before c r)
  end.
(** s.partition(c)[2]. *)
Fixpoint after (c : ascii) (s : string) : string :=
  match s with
  | "" => ""
  | String a r => if Ascii.eqb a c then r else after c r
  end.

(** The white space of str.split, in ASCII: tab to carriage return, 28 to 31, and blank. *)
Definition is_space (a : ascii) : bool :=
  let n := N_of_ascii a in
  ((N.leb 9 n && N.leb n 13) || (N.leb 28 n && N.leb n 32))%N%bool.

(** s.split(), with [cur] the word begun. *)
Definition end_word (cur : string) : list string := if String.eqb cur "" then [] else [cur].
Fixpoint split_from (cur : string) (s : string) : list string :=
  match s with
  | "" => end_word cur
  | String a r => if is_space a then end_word cur ++ split_from "" r
                  else split_from (cur ++ String a "") r
  end.

(** 180-182. *)
Definition line_words (l : string) : list string := split_from "" (before "!" (before "#" l)).

(** 175-184: read_control. *)
Definition read_control (lines : list string) : list (list string) :=
  filter (fun ws => negb (Nat.eqb (List.length ws) 0)) (map line_words lines).

(** ---- the steps ------------------------------------------------------------------ *)

(** line[i]. *)
Definition word (l : list string) (i : nat) : CErr + string :=
  match nth_error l i with Some s => inr s | None => inl CIndexError end.
Definition is_key (k : string) (l : list string) : bool :=
  match l with a :: _ => String.eqb a k | [] => false end.

Definition cbind {A B} (x : CErr + A) (f : A -> CErr + B) : CErr + B :=
  match x with inr a => f a | inl e => inl e end.
Notation "x <<- e ;; k" := (cbind e (fun x => k)) (at level 61, e at next level, right associativity).

(** A loop over the lines that updates a state. *)
Fixpoint over {A} (f : A -> list string -> CErr + A) (a : A) (lines : list (list string)) : CErr + A :=
  match lines with
  | [] => inr a
  | l :: r => a' <<- f a l ;; over f a' r
  end.

(** d[k] = x of a dict: a key keeps its place. *)
Fixpoint dset (d : list (string * R)) (k : string) (x : R) : list (string * R) :=
  match d with
  | [] => [(k, x)]
  | (k', y) :: r => if String.eqb k' k then (k', x) :: r else (k', y) :: dset r k x
  end.

(** variables.index(k). *)
Fixpoint index_of (ks : list string) (k : string) : option nat :=
  match ks with
  | [] => None
  | a :: r => if String.eqb a k then Some 0%nat else option_map S (index_of r k)
  end.

(** m[i,j] = x. *)
Definition mset (m : nat -> nat -> R) (i j : nat) (x : R) : nat -> nat -> R :=
  fun a b => if (Nat.eqb a i && Nat.eqb b j)%bool then x else m a b.

Section Convert.
  Variable flt : string -> option R.
  Variable int : string -> option Z.
  Variable glob : string -> list (list Line).
  Variable extra : RWorld -> list nat -> string -> nat -> option RVal.
  Variable eigh : Matrix -> option (list R * Matrix).
  Variable inv : Matrix -> option Matrix.

  Definition to_float (s : string) : CErr + R :=
    match flt s with Some x => inr x | None => inl CValueError end.
  Definition to_int (s : string) : CErr + Z :=
    match int s with Some x => inr x | None => inl CValueError end.

  (** 187-193: file_in, format_in and station. *)
  Definition Input : Type := string * string * option Z.
  Definition input_line (a : Input) (l : list string) : CErr + Input :=
    a1 <<- (if is_key "file_in" l then s <<- word l 1 ;; inr (s, snd (fst a), snd a) else inr a) ;;
    a2 <<- (if is_key "format_in" l then s <<- word l 1 ;; inr (fst (fst a1), s, snd a1) else inr a1) ;;
    (if is_key "station_in" l then s <<- word l 1 ;; z <<- to_int s ;; inr (fst a2, Some z) else inr a2).

  (** 186-201: read_input. *)
  Definition read_input (w : RWorld) (lines : list (list string)) : RWorld * (CErr + Bunch) :=
    match over input_line ("", "", None) lines with
    | inl e => (w, inl e)
    | inr (file_in, format_in, None) =>
        match load_bunch format_in w (fun _ => true) (-1) (glob file_in) with
        | (w', inl e) => (w', inl (CIO (LRead e)))
        | (w', inr b) => (w', inr b)
        end
    | inr (file_in, format_in, Some station) =>
        match new_dict_from_read_builtin extra format_in w (glob file_in) "station" (fun _ => true) with
        | (w', inl e) => (w', inl (CIO e))
        | (w', inr d) => match find (fun p => Z.eqb (fst p) station) d with
                         | Some (_, b) => (w', inr b)
                         | None => (w', inl CKeyError)
                         end
        end
    end.

  (** 204-208: file_out and format_out. *)
  Definition output_line (a : string * string) (l : list string) : CErr + string * string :=
    a1 <<- (if is_key "file_out" l then s <<- word l 1 ;; inr (s, snd a) else inr a) ;;
    (if is_key "format_out" l then s <<- word l 1 ;; inr (fst a1, s) else inr a1).

  (** 203-210: write_output; the name of the file and its lines. *)
  Definition write_output (g4 : string) (w : RWorld) (b : Bunch) (lines : list (list string))
    : RWorld * (CErr + string * list Line) :=
    match over output_line ("", "") lines with
    | inl e => (w, inl e)
    | inr (file_out, format_out) =>
        match hit_write_builtin g4 w b format_out None with
        | (w', inl e) => (w', inl (CWrite e))
        | (w', inr ls) => (w', inr (file_out, ls))
        end
    end.

  (** 213-218: the variables to rotate, and the origin. *)
  Definition rotate_line (a : list string * list (string * R)) (l : list string)
    : CErr + list string * list (string * R) :=
    let a1 := if is_key "rotate" l then (fst a ++ tl l, snd a) else a in
    (if is_key "origin" l then
       (** the value is evaluated before the key *)
       s <<- word l 2 ;; x <<- to_float s ;; k <<- word l 1 ;; inr (fst a1, dset (snd a1) k x)
     else inr a1).

  (** 221-227: the target matrix. *)
  Definition covariance_line (ks : list string) (m : nat -> nat -> R) (l : list string)
    : CErr + (nat -> nat -> R) :=
    if is_key "covariance" l then
      k1 <<- word l 1 ;;
      match index_of ks k1 with
      | None => inl CValueError
      | Some i1 =>
          k2 <<- word l 2 ;;
          match index_of ks k2 with
          | None => inl CValueError
          | Some i2 =>
              s <<- word l 3 ;; x <<- to_float s ;; inr (mset (mset m i1 i2 x) i2 i1 x)
          end
      end
    else inr m.

  (** 212-230: rotate.  The third argument of transform_to is its translation (line 229). *)
  Definition rotate (w : RWorld) (b : Bunch) (lines : list (list string)) : RWorld * option CErr :=
    match over rotate_line ([], []) lines with
    | inl e => (w, Some e)
    | inr (ks, origin) =>
        if Nat.leb (List.length ks) 1 then (w, None)
        else
          match over (covariance_line ks) (fun _ _ => 0%R) lines with
          | inl e => (w, Some e)
          | inr m =>
              match transform_to extra eigh inv no_fixed w b ks (matrix_of (List.length ks) m) origin [] "" with
              | inl e => (w, Some (CMoment e))
              | inr (w', Some e) => (w', Some (CHit e))
              | inr (w', None) =>
                  match covariance_matrix extra no_fixed w' b ks (float_values origin) with
                  | inl e => (w', Some (CMoment e))
                  | inr _ => (w', None)
                  end
              end
          end
    end.

  (** 235-237: the pairs of one line. *)
  Fixpoint translate_pairs (d : list (string * R)) (ws : list string) : CErr + list (string * R) :=
    match ws with
    | [] => inr d
    | [_] => inl CIndexError
    | k :: s :: r => x <<- to_float s ;; translate_pairs (dset d k x) r
    end.
  Definition translate_line (d : list (string * R)) (l : list string) : CErr + list (string * R) :=
    if is_key "translate" l then translate_pairs d (tl l) else inr d.

  (** 232-239: translate. *)
  Definition translate (w : RWorld) (b : Bunch) (lines : list (list string)) : RWorld * option CErr :=
    match over translate_line [] lines with
    | inl e => (w, Some e)
    | inr d => match bunch_translate w b (float_values d) "" with
               | (w', Some e) => (w', Some (CHit e))
               | (w', None) => (w', None)
               end
    end.

  (** 246: Hit.mass_shell_condition. *)
  Definition shell_hit (k : string) (s : PSt) : PSt * option PyErr :=
    let (h, r) := mass_shell (fst s) k in ((h, snd s), ms_err r).

  (** 241-247: mass_shell_condition; it returns after the first such line. *)
  Fixpoint mass_shell_condition (w : RWorld) (b : Bunch) (lines : list (list string)) : RWorld * option CErr :=
    match lines with
    | [] => (w, None)
    | l :: r =>
        if is_key "mass_shell_condition" l then
          match word l 1 with
          | inl e => (w, Some e)
          | inr k => match on_hits (shell_hit k) w (b_hits b) with
                     | (w', Some e) => (w', Some (CHit e))
                     | (w', None) => (w', None)
                     end
          end
        else mass_shell_condition w b r
    end.

  (** 249-260: plots.  The plots are tuples and have no Print, so the first one asked for raises; the
      format chosen in 250-253 has no effect. *)
  Definition plots (lines : list (list string)) (do_in : bool) : option CErr :=
    if existsb (fun l => if do_in then is_key "histogram_in" l || is_key "scatter_in" l
                         else is_key "histogram_out" l || is_key "scatter_out" l)%bool lines
    then Some CPlot else None.

  (** 165-173: file_convert, after read_control. *)
  Definition convert (g4 : string) (w : RWorld) (lines : list (list string))
    : RWorld * (CErr + string * list Line) :=
    match read_input w lines with
    | (w1, inl e) => (w1, inl e)
    | (w1, inr b) =>
        match plots lines true with
        | Some e => (w1, inl e)
        | None =>
            match rotate w1 b lines with
            | (w2, Some e) => (w2, inl e)
            | (w2, None) =>
                match translate w2 b lines with
                | (w3, Some e) => (w3, inl e)
                | (w3, None) =>
                    match mass_shell_condition w3 b lines with
                    | (w4, Some e) => (w4, inl e)
                    | (w4, None) =>
                        match plots lines false with
                        | Some e => (w4, inl e)
                        | None => write_output g4 w4 b lines
                        end
                    end
                end
            end
        end
    end.

  (** 165-173: file_convert(control_file). *)
  Definition file_convert (control : string -> option (list string)) (g4 : string) (w : RWorld) (name : string)
    : RWorld * (CErr + string * list Line) :=
    match control name with
    | None => (w, inl CNoControl)
    | Some lines => convert g4 w (read_control lines)
    end.

  (** 262-277: the script.  [Some (file, lines)]: a file is written.  The number is
      the exit status: 1 for an exception that is not caught (a NameError in 267). *)
  Definition main (control : string -> option (list string)) (g4 : string) (w : RWorld) (argv0 : string)
      (args : list string) : option (string * list Line) * Z :=
    let run name :=
      if contains argv0 "File_Convert" then
        match snd (file_convert control g4 w name) with
        | inr out => (Some out, 0%Z)
        | inl _ => (None, 0%Z)
        end
      else (None, 0%Z) in
    match args with
    | [] => run "file_convert.inp"
    | a :: _ => if String.eqb (before "=" a) "-c" then run (after "=" a) else (None, 1%Z)
    end.
End Convert.
