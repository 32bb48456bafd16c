(** Model of the text files of hits character by character: what is written and what the reader makes of any text.
    Source: xboa/hit/_hit.py 413-470, 716-722; xboa/hit/factory/_line_factory_base.py 43-69; xboa/bunch/_bunch.py
    276-340, 465-486.

    The text of a number (str) and the number of a word (int, float) are parameters [show] and [parse].
    Simplified: one file; "\n" is the only line end; characters are bytes. *)
From Coq Require Import Reals ZArith List Bool String Ascii.
From Verif Require Import Num WeightModel HitcoreModel PyLibModel HitPyModel TableModel BunchModel BunchNumModel IOModel.
Import ListNotations.
Open Scope string_scope.
Open Scope list_scope.

Definition eol : string := String (ascii_of_nat 10) "".

(** _hit.py 717-721: every value is followed by the separator. *)
Fixpoint words_text (show : Tok -> string) (ts : list Tok) : string :=
  match ts with
  | [] => ""
  | t :: r => (show t ++ " " ++ words_text show r)%string
  end.

(** A line without its end. *)
Definition body (show : Tok -> string) (l : Line) : string :=
  match l with LText s => s | LData ts => words_text show ts end.

(** The text of a file: _hit.py 468 for the header, 717-722 for the lines. *)
Fixpoint text_of (show : Tok -> string) (file : list Line) : string :=
  match file with
  | [] => ""
  | l :: r => (body show l ++ eol ++ text_of show r)%string
  end.

(** Blank characters: tab to carriage return, separators, space. *)
Definition is_space (c : ascii) : bool :=
  let n := nat_of_ascii c in ((9 <=? n)%nat && (n <=? 13)%nat) || ((28 <=? n)%nat && (n <=? 32)%nat).

(** str.split(), _line_factory_base.py 52. *)
Fixpoint split_from (cur : string) (s : string) : list string :=
  match s with
  | "" => if String.eqb cur "" then [] else [cur]
  | String c r =>
      if is_space c then (if String.eqb cur "" then [] else [cur]) ++ split_from "" r
      else split_from (cur ++ String c "")%string r
  end.
Definition split_ws (s : string) : list string := split_from "" s.

(** _line_factory_base.py 52-68: the words as numbers. *)
Definition parse_line (parse : string -> Tok) (s : string) : Line := LData (map parse (split_ws s)).

(** _bunch.py 465-486: the lines the reader sees. *)
Definition setup_text (fmt : string) (text : string) : IOErr + list string :=
  match assoc number_of_header_lines fmt with
  | None => inl IKeyError
  | Some n =>
      let ls := skipn n (lines_of text) in
      inr (if is_g4bl fmt then filter (fun s => negb (comment_line (LText s))) ls else ls)
  end.

(** _bunch.py 276-340, for a file with this text. *)
Definition read_text (parse : string -> Tok) (fmt : string) (c : RCtx) (test : RHit -> bool) (n : Z) (text : string)
  : IOErr + list RHit :=
  if negb (is_in fmt file_types) then inl IIOError
  else match setup_text fmt text with
       | inl e => inl e
       | inr ls => fst (read_lines (read_hit fmt c) test n [] (map (parse_line parse) ls))
       end.
