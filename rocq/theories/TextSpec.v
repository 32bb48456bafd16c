(** Vocabulary for text files cut off in the middle (C99). *)
From Coq Require Import Reals ZArith List Bool String Ascii.
From Verif Require Import Num HitcoreModel HitPyModel IOModel.
Import ListNotations.
Open Scope string_scope.
Open Scope list_scope.

(** A word: not empty, no blanks, not a comment. *)
Fixpoint blank_in (s : string) : bool :=
  match s with
  | "" => false
  | String c r => existsb (fun n => Nat.eqb (nat_of_ascii c) n) [9; 10; 11; 12; 13; 28; 29; 30; 31; 32]%nat || blank_in r
  end.
Definition is_word (s : string) : Prop := s <> "" /\ blank_in s = false /\ String.prefix "#" s = false.

(** The text of a number is a word, and the number can be had back from it. *)
Definition legible (show : Tok -> string) (parse : string -> Tok) (t : Tok) : Prop :=
  is_word (show t) /\ parse (show t) = t.

(** The number of line ends in a text. *)
Fixpoint line_ends (s : string) : nat :=
  match s with
  | "" => 0
  | String c r => (if Nat.eqb (nat_of_ascii c) 10 then 1 else 0) + line_ends r
  end.

(** The number of lines in the header that the writer makes. *)
Definition header_size (fmt : string) : nat :=
  if String.eqb fmt "icool_for009" then 3
  else if String.eqb fmt "mars_1" then 0 else 2.

(** q is part of the word w, from its beginning, and not empty. *)
Definition part_of_word (q w : string) : Prop := q <> "" /\ exists r, w = (q ++ r)%string.

(** Words with blanks about them: any number before a word, at least one after it unless the text ends. *)
Definition blank_char (c : ascii) : Prop := In c [" "; "009"; "010"; "013"]%char.
Definition blanks (s : string) : Prop := Forall blank_char (list_ascii_of_string s).
Inductive spaced : list string -> string -> Prop :=
| spaced_end g : blanks g -> spaced [] g
| spaced_last g w : blanks g -> w <> "" -> blank_in w = false -> spaced [w] (g ++ w)%string
| spaced_next g w c ws t : blanks g -> w <> "" -> blank_in w = false -> blank_char c -> spaced ws t ->
    spaced (w :: ws) (g ++ w ++ String c t)%string.
