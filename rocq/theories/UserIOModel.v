(** Model of writing bunches to text files: user defined formats and dictionaries of bunches.
    Source: xboa/bunch/_bunch.py 1375-1409 and xboa/hit/_hit.py 487-498; line numbers refer to
    _bunch.py.  Simplifications as in IOModel. *)
From Coq Require Import Reals ZArith List Bool String.
From Verif Require Import Num WeightModel HitcoreModel PyLibModel HitPyModel TableModel
  BunchModel BunchNumModel IOModel.
Import ListNotations.
Open Scope string_scope.
Open Scope list_scope.

(** The separator of hit_write_user: white space, or text that is neither white space nor part of a
    number, as '@' or ','.  Others are not modelled. *)
Inductive Separator := SBlank | SJoin.

(** _hit.py 717-722: the words that split() finds in the line of some tokens. *)
Definition line_of (sep : Separator) (ts : list Tok) : Line :=
  match sep, ts with
  | SBlank, _ => LData ts
  | SJoin, [] => LData []
  | SJoin, _ => LData [TBad]
  end.

(** _hit.py 487-498: write_user_formatted of the hit at location l; the hit is only read. *)
Definition write_user_at (w : RWorld) (cols : list string) (us : list (string * string)) (sep : Separator)
    (l : nat) : IOErr + Line :=
  match w_hits w l with
  | Some h => match write_columns (h, cur_ctx w) us cols with
              | inl e => inl e
              | inr ts => inr (line_of sep ts)
              end
  | None => inl IKeyError
  end.

(** 1408-1409: the loop; the lines completed, and the exception. *)
Fixpoint write_user_loop (w : RWorld) (cols : list string) (us : list (string * string)) (sep : Separator)
    (ls : list nat) : list Line * option IOErr :=
  match ls with
  | [] => ([], None)
  | l :: r =>
      match write_user_at w cols us sep l with
      | inl e => ([], Some e)
      | inr line => let (out, e) := write_user_loop w cols us sep r in (line :: out, e)
      end
  end.

(** 1391-1409: hit_write_user.  [comparator]: one is given; list.sort takes no positional argument in
    Python 3. *)
Definition hit_write_user (w : RWorld) (b : Bunch) (cols : list string) (us : list (string * string))
    (sep : Separator) (comparator : bool) : list Line * option IOErr :=
  if comparator then ([], Some (IPy ETypeError)) else write_user_loop w cols us sep (b_hits b).

(** 1375-1388: hit_write_builtin_from_dict, the bunches in the order of the dictionary; the comment
    is not passed on. *)
Definition hit_write_builtin_from_dict (g4 : string) (w : RWorld) (bunches : list Bunch) (fmt : string)
    (comment : option string) : RWorld * (IOErr + list Line) :=
  if negb (is_in fmt file_types) then (w, inl IIOError)
  else write_list g4 fmt w (flat_map b_hits bunches) None.

(** 1363-1373: hit_write_builtin. *)
Definition hit_write_builtin (g4 : string) (w : RWorld) (b : Bunch) (fmt : string)
    (comment : option string) : RWorld * (IOErr + list Line) :=
  if negb (is_in fmt file_types) then (w, inl IIOError)
  else write_list g4 fmt w (b_hits b) comment.
