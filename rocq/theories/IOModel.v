(** Model of reading and writing hits in the builtin and user defined text formats.
    Source: xboa/hit/_hit.py 155-189, 390-503, 685-722; xboa/hit/factory/
    _line_factory_base.py, _builtin_hit_factory.py, _user_hit_factory.py;
    xboa/bunch/_bunch.py 243-376, 465-486.

    Simplifications: a line of numbers is a list of tokens; a token is the text of an
    integer, of a float, or something that is not a number; str() of a float followed by
    float() gives the same float.  Text lines (headers, comments) are strings.  The files
    are lists of lines; errors of the file system, printed warnings and the glob of file
    names are left out. *)
From Coq Require Import Reals ZArith List Bool String Ascii.
From Verif Require Import Num WeightModel HitcoreModel PyLibModel HitPyModel TableModel
  BunchModel BunchNumModel.
Import ListNotations.
Open Scope string_scope.
Open Scope list_scope.
Open Scope R_scope.

Inductive Tok := TInt (z : Z) | TNum (x : R) | TBad.
Inductive Line := LText (s : string) | LData (t : list Tok).

Inductive IOErr := IKeyError | IIOError | IValueError | IPy (e : PyErr).

(** str.find(sub) > -1. *)
Definition contains (s sub : string) : bool :=
  match String.index 0 sub s with Some _ => true | None => false end.

(** Python int(x) of a float: truncation towards 0. *)
Definition trunc (x : R) : Z := if Rle_dec 0 x then Rfloor x else (- Rfloor (- x))%Z.

Definition is_in (k : string) (l : list string) : bool := existsb (String.eqb k) l.

(** ---- writing ------------------------------------------------------------------- *)

(** _hit.py 717-721: one column. *)
Definition write_column (s : PSt) (us : list (string * string)) (k : string)
  : IOErr + Tok :=
  if String.eqb k "" then inr (TInt 0)
  else
    match py_get s k with
    | inl e => inl (IPy e)
    | inr v =>
        match assoc us k with
        | None => inl IKeyError
        | Some u =>
            match assoc units u, as_real v with
            | Some f, Some x =>
                if is_in k int_vars then inr (TInt (trunc (x / f)))
                else if is_in k float_vars then inr (TNum (x / f)) else inl IKeyError
            | None, _ => inl IKeyError
            | _, None => inl (IPy ETypeError)
            end
        end
    end.

(** _hit.py 717-722: __write_formatted: the tokens of the line.  (After an exception in
    the middle of a line the tokens already written stay in the file; the model only
    keeps the exception.) *)
Fixpoint write_columns (s : PSt) (us : list (string * string)) (fmt : list string)
  : IOErr + list Tok :=
  match fmt with
  | [] => inr []
  | k :: r =>
      match write_column s us k with
      | inl e => inl e
      | inr t => match write_columns s us r with inl e => inl e | inr ts => inr (t :: ts) end
      end
  end.

(** [self.set('pid', table[self.get('pid')])], _hit.py 403-411. *)
Definition translate_pid (s : PSt) (table : list (Z * Z)) : PSt * option IOErr :=
  match py_get s "pid" with
  | inr (PInt z) =>
      match zassoc table z with
      | None => (s, Some IKeyError)
      | Some z' => match py_set s "pid" (PInt z') with
                   | (s', None) => (s', None)
                   | (s', Some e) => (s', Some (IPy e))
                   end
      end
  | inr _ => (s, Some IKeyError)
  | inl e => (s, Some (IPy e))
  end.

Definition translate_if (b : bool) (table : list (Z * Z)) (s : PSt) : PSt * option IOErr :=
  if b then translate_pid s table else (s, None).

(** _hit.py 392-411: write_builtin_formatted. *)
Definition write_hit (g4 : string) (fmt : string) (s : PSt) : PSt * (IOErr + list Tok) :=
  if contains fmt "maus" then (s, inl IIOError)
  else
    match translate_if (contains fmt "icool") pdg_pid_to_icool s with
    | (s1, Some e) => (s1, inl e)
    | (s1, None) =>
        match translate_if (contains fmt "mars") pdg_pid_to_mars s1 with
        | (s2, Some e) => (s2, inl e)
        | (s2, None) =>
            match assoc file_formats fmt, assoc (file_units g4) fmt with
            | Some cols, Some us =>
                match write_columns s2 us cols with
                | inl e => (s2, inl e)
                | inr ts =>
                    match translate_if (contains fmt "icool") icool_pid_to_pdg s2 with
                    | (s3, Some e) => (s3, inl e)
                    | (s3, None) =>
                        match translate_if (contains fmt "mars") mars_pid_to_pdg s3 with
                        | (s4, Some e) => (s4, inl e)
                        | (s4, None) => (s4, inr ts)
                        end
                    end
                end
            | _, _ => (s2, inl IKeyError)
            end
        end
    end.

(** The same for the hit at location l. *)
Definition write_at (g4 fmt : string) (w : RWorld) (l : nat) : RWorld * (IOErr + list Tok) :=
  match w_hits w l with
  | Some h => let (s, r) := write_hit g4 fmt (h, cur_ctx w) in
              (with_hit (with_cur w (snd s)) l (fst s), r)
  | None => (w, inl IKeyError)
  end.

(** _hit.py 442-445 and 449-453: write a group of hits; a failure is ignored (a warning is
    printed for the last group). *)
Fixpoint write_group (g4 fmt : string) (w : RWorld) (ls : list nat) : RWorld * list Line :=
  match ls with
  | [] => (w, [])
  | l :: r =>
      let (w1, res) := write_at g4 fmt w l in
      let (w2, out) := write_group g4 fmt w1 r in
      (w2, match res with inr ts => LData ts :: out | inl _ => out end)
  end.

(** hit["station"]. *)
Definition station (w : RWorld) (l : nat) : Z :=
  match hit_get w l "station" with Some (PInt z) => z | _ => 0%Z end.

(** _hit.py 436-453: the loop that writes whenever the station changes. *)
Fixpoint write_loop (g4 fmt : string) (w : RWorld) (old : option nat) (current : list nat)
    (ls : list nat) : RWorld * list Line :=
  match ls with
  | [] => write_group g4 fmt w current
  | l :: r =>
      if match old with None => true | Some o => Z.eqb (station w l) (station w o) end
      then write_loop g4 fmt w (Some l) (current ++ [l]) r
      else
        let (w1, out) := write_group g4 fmt w current in
        let (w2, out') := write_loop g4 fmt w1 (Some l) [l] r in
        (w2, out ++ out')
  end.

(** _hit.py 472-485: file_header. *)
Definition default_comment : string := "File generated by X_BOA".
Definition file_header (fmt : string) (comment : option string) : option string :=
  match assoc file_headers fmt with
  | None => None
  | Some (a, None) => Some a
  | Some (a, Some b) =>
      Some (a ++ (match comment with Some c => c | None => default_comment end) ++ b)%string
  end.

(** The lines of a text: everything up to each newline. *)
Fixpoint lines_from (cur : string) (s : string) : list string :=
  match s with
  | "" => if String.eqb cur "" then [] else [cur]
  | String c r =>
      if Ascii.eqb c (ascii_of_nat 10) then cur :: lines_from "" r
      else lines_from (cur ++ String c "")%string r
  end.
Definition lines_of (s : string) : list string := lines_from "" s.

(** _hit.py 413-457: write_list_builtin_formatted (text formats; for the MAUS formats see
    MausModel): the lines of the file. *)
Definition write_list (g4 fmt : string) (w : RWorld) (ls : list nat) (comment : option string)
  : RWorld * (IOErr + list Line) :=
  if negb (is_in fmt file_types) then (w, inl IIOError)
  else
    match file_header fmt comment with
    | None => (w, inl IKeyError)
    | Some hdr =>
        let sorted := sort (fun a b => Z.ltb (station w a) (station w b)) ls in
        let (w', out) := write_loop g4 fmt w None [] sorted in
        (w', inr (map LText (lines_of hdr) ++ out))
    end.

(** ---- reading ------------------------------------------------------------------- *)

(** str.split of a text line; the words are not numbers, except "0.". *)
Fixpoint words_from (cur : string) (s : string) : list string :=
  match s with
  | "" => if String.eqb cur "" then [] else [cur]
  | String c r =>
      if Ascii.eqb c " " then
        (if String.eqb cur "" then [] else [cur]) ++ words_from "" r
      else words_from (cur ++ String c "")%string r
  end.
Definition tokens (l : Line) : list Tok :=
  match l with
  | LData t => t
  | LText s => map (fun x => if String.eqb x "0." then TNum 0 else TBad) (words_from "" s)
  end.

Inductive RRes := RHitOk (h : RHit) | RBad | RRaise (e : IOErr).

(** _line_factory_base.py 60-68: conversion of one column. *)
Definition read_value (us : list (string * string)) (k : string) (t : Tok) : IOErr + RVal :=
  if is_in k int_vars then
    match t with
    | TInt z => inr (PInt z)
    | TNum x => inr (PInt (trunc x))
    | TBad => inl IValueError
    end
  else if is_in k float_vars then
    match t with
    | TBad => inl IValueError
    | _ =>
        match assoc us k with
        | None => inl IKeyError
        | Some u =>
            match assoc units u with
            | None => inl IKeyError
            | Some f => inr (PFloat ((match t with TInt z => IZR z | TNum x => x | TBad => 0 end
                                      * f)%R : RNum))
            end
        end
    end
  else inl IKeyError.

(** _line_factory_base.py 57-69: the loop over the columns. *)
Fixpoint read_columns (us : list (string * string)) (fmt : list string) (ts : list Tok)
    (s : PSt) : PSt * option IOErr :=
  match fmt, ts with
  | k :: r, t :: ts' =>
      if String.eqb k "" then read_columns us r ts' s
      else
        match read_value us k t with
        | inl e => (s, Some e)
        | inr v =>
            match py_set s k v with
            | (s', None) => read_columns us r ts' s'
            | (s', Some e) => (s', Some (IPy e))
            end
        end
  | _, _ => (s, None)
  end.

(** _line_factory_base.py 43-69: _read_formatted on the words of a line. *)
Definition read_formatted (us : list (string * string)) (fmt : list string) (c : RCtx)
    (ts : list Tok) : RRes :=
  if negb (Nat.eqb (List.length ts) (List.length fmt)) then RBad
  else
    match read_columns us fmt ts (hit_new, c) with
    | (s, None) => RHitOk (fst s)
    | (_, Some e) => RRaise e
    end.

(** [hit.set(k, v)] where no exception is possible. *)
Definition put (h : RHit) (c : RCtx) (k : string) (v : RVal) : RHit := fst (fst (py_set (h, c) k v)).

Definition pid_of (h : RHit) : Z := h_int h Ipid.

(** _builtin_hit_factory.py 46-62: mass, mass shell and charge from the pid. *)
Definition complete (cols : list string) (ms : string) (c : RCtx) (h : RHit) : RHit :=
  let m := match zassoc pdg_pid_to_mass (Z.abs (pid_of h)) with Some m => m | None => 0 end in
  let h1 := fst (mass_shell (put h c "mass" (PFloat (m : RNum))) ms) in
  if is_in "charge" cols then h1
  else match zassoc pdg_pid_to_charge (pid_of h1) with
       | Some q => put h1 c "charge" (PInt q)
       | None => h1
       end.

(** _builtin_hit_factory.py 24-63: the constructor and make_hit, on the words of a line. *)
Definition read_hit (fmt : string) (c : RCtx) (ts : list Tok) : RRes :=
  match assoc file_formats fmt, assoc (file_units "mm") fmt, assoc file_mass_shell fmt with
  | Some cols, Some us, Some ms =>
      match read_formatted us cols c ts with
      | RHitOk h =>
          match translate_if (contains fmt "icool") icool_pid_to_pdg (h, c) with
          | (_, Some e) => RRaise e
          | (s1, None) =>
              match translate_if (contains fmt "mars") mars_pid_to_pdg s1 with
              | (_, Some e) => RRaise e
              | (s2, None) => RHitOk (complete cols ms c (fst s2))
              end
          end
      | r => r
      end
  | _, _, _ => RRaise IKeyError
  end.

(** Hit.set_variables: the names of the core and the table __set_variables. *)
Definition settable : list string :=
  set_names ++ [ "p"; "x'"; "y'"; "t'"; "ct"; "kinetic_energy"; "" ].

(** _user_hit_factory.py 45-59: the checks of the constructor: [true] if no KeyError. *)
Definition user_format_ok (cols : list string) (us : list (string * string)) : bool :=
  forallb (fun k =>
    is_in k settable && (is_in k int_vars || is_in k float_vars) &&
    (negb (is_in k float_vars && negb (String.eqb k "")) ||
     match assoc us k with Some u => is_in u (map fst units) | None => false end)) cols.

(** _user_hit_factory.py 61-74: the constructor and make_hit. *)
Definition read_user_hit (cols : list string) (us : list (string * string)) (ms : string)
    (c : RCtx) (ts : list Tok) : RRes :=
  if negb (user_format_ok cols us) then RRaise IKeyError
  else
    match read_formatted us cols c ts with
    | RHitOk h =>
        let mass_step :=
          if is_in "mass" cols then Some h
          else match zassoc pdg_pid_to_mass (Z.abs (pid_of h)) with
               | Some m => Some (put h c "mass" (PFloat (m : RNum)))
               | None => None
               end in
        match mass_step with
        | None => RRaise IKeyError
        | Some h1 =>
            let (h2, r) := mass_shell h1 ms in
            match ms_err r with
            | Some e => RRaise (IPy e)
            | None =>
                if is_in "charge" cols then RHitOk h2
                else match zassoc pdg_pid_to_charge (pid_of h2) with
                     | Some q => RHitOk (put h2 c "charge" (PInt q))
                     | None => RRaise IKeyError
                     end
            end
        end
    | r => r
    end.

(** _bunch.py 322-333 and 363-375: the loop over the lines of one file.  [acc] are the
    hits of the bunch so far.  Result: bunch or exception, and the lines not read. *)
Fixpoint read_lines (mk : list Tok -> RRes) (test : RHit -> bool) (n : Z) (acc : list RHit)
    (ls : list Line) : (IOErr + list RHit) * list Line :=
  match ls with
  | [] => (inr acc, [])
  | l :: r =>
      if (Z.ltb (Z.of_nat (List.length acc)) n || Z.ltb n 0)%bool then
        match mk (tokens l) with
        | RBad => read_lines mk test n acc r
        | RRaise e => (inl e, r)
        | RHitOk h => read_lines mk test n (if test h then acc ++ [h] else acc) r
        end
      else (inr acc, ls)
  end.

(** First character of a line is '#' (or the line is empty). *)
Definition comment_line (l : Line) : bool :=
  match l with
  | LText "" => true
  | LText (String c _) => Ascii.eqb c "#"
  | LData [] => true
  | LData _ => false
  end.

Definition is_g4bl (fmt : string) : bool :=
  (String.eqb fmt "g4beamline_bl_track_file" || String.eqb fmt "g4beamline_bl_track_file_2")%bool.

(** _bunch.py 465-486: setup_file: the lines the reader sees. *)
Definition setup_file (fmt : string) (file : list Line) : IOErr + list Line :=
  match assoc number_of_header_lines fmt with
  | None => inl IKeyError
  | Some n =>
      let body := skipn n file in
      inr (if is_g4bl fmt then filter (fun l => negb (comment_line l)) body else body)
  end.

(** _bunch.py 476-478: the effect of reading a g4beamline file on the unit of the writer. *)
Definition unit_line (g4 : string) (l : Line) : string :=
  match l with
  | LText (String c r) =>
      if Ascii.eqb c "#" then
        if contains (String c r) "cm cm cm" then "cm"
        else if contains (String c r) "mm mm mm" then "mm" else g4
      else g4
  | _ => g4
  end.
Definition unit_after_read (fmt g4 : string) (file : list Line) : string :=
  if is_g4bl fmt then fold_left unit_line file g4 else g4.

(** _bunch.py 318-337: the loop over files. *)
Fixpoint read_files (fmt : string) (c : RCtx) (test : RHit -> bool) (n : Z) (acc : list RHit)
    (files : list (list Line)) : IOErr + list RHit :=
  match files with
  | [] => inr acc
  | f :: r =>
      match setup_file fmt f with
      | inl e => inl e
      | inr ls =>
          match read_lines (read_hit fmt c) test n acc ls with
          | (inl e, _) => inl e
          | (inr acc', _) => read_files fmt c test n acc' r
          end
      end
  end.

(** _bunch.py 276-340: new_from_read_builtin for the text formats, given the contents of
    the files that match. *)
Definition new_from_read_builtin (fmt : string) (c : RCtx) (test : RHit -> bool) (n : Z)
    (files : list (list Line)) : IOErr + list RHit :=
  if negb (is_in fmt file_types) then inl IIOError
  else match files with [] => inl IIOError | _ => read_files fmt c test n [] files end.

(** _bunch.py 343-376: new_from_read_user. *)
Definition new_from_read_user (cols : list string) (us : list (string * string)) (c : RCtx)
    (skip : nat) (test : RHit -> bool) (n : Z) (file : list Line) : IOErr + list RHit :=
  let ls := skipn skip file in
  match ls with
  | [] => if (negb (user_format_ok cols us) && negb (Z.eqb n 0))%bool
          then inl IKeyError else inr []
  | _ => fst (read_lines (read_user_hit cols us "" c) test n [] ls)
  end.
