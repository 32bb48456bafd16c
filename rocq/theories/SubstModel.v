(** Model of common.substitute: xboa/common/_common.py 139-156.  Characters are code points. *)
From Coq Require Import ZArith List Bool.
Import ListNotations.
Open Scope list_scope.

Notation Text := (list Z).

(** Python's file reading in text mode: "\r\n" and "\r" become "\n" (151: iteration over a file
    opened with 'r'). *)
Fixpoint universal (t : Text) : Text :=
  match t with
  | [] => []
  | 13%Z :: ((10%Z :: _) as r) => universal r
  | c :: r => (if Z.eqb c 13 then 10%Z else c) :: universal r
  end.

(** 151: for line in fin; every line ends with its newline, except perhaps the last. *)
Fixpoint lines (t : Text) : list Text :=
  match t with
  | [] => []
  | c :: r =>
      if Z.eqb c 10 then [c] :: lines r
      else match lines r with [] => [[c]] | l :: ls => (c :: l) :: ls end
  end.

Fixpoint starts_with (k s : Text) : bool :=
  match k, s with
  | [], _ => true
  | _, [] => false
  | a :: k', b :: s' => (Z.eqb a b && starts_with k' s')%bool
  end.

(** str.replace (153): from left to right, without overlap; an empty key matches before every character
    and at the end.  [skip]: characters of the last match still to be passed over. *)
Fixpoint replace_from (k v : Text) (skip : nat) (s : Text) : Text :=
  match s with
  | [] => []
  | c :: r =>
      match skip with
      | S m => replace_from k v m r
      | O => if starts_with k s then v ++ replace_from k v (pred (length k)) r else c :: replace_from k v 0 r
      end
  end.
Definition replace (k v s : Text) : Text :=
  match k with
  | [] => v ++ flat_map (fun c => c :: v) s
  | _ => replace_from k v 0 s
  end.

(** 152-153: the loop over the dictionary. *)
Definition switch_line (d : list (Text * Text)) (line : Text) : Text :=
  fold_left (fun l kv => replace (fst kv) (snd kv) l) d line.

(** Files by name (names are numbers).  *)
Definition Files := nat -> option Text.
Definition put (fs : Files) (f : nat) (t : Text) : Files := fun g => if Nat.eqb f g then Some t else fs g.

(** 149-156; [None]: the input file cannot be opened.  Opening the output file (150) empties it, before
    anything is read.  That it can be opened is taken for granted. *)
Definition substitute (fs : Files) (fin fout : nat) (d : list (Text * Text)) : option Files :=
  match fs fin with
  | None => None
  | Some _ =>
      let fs1 := put fs fout [] in
      match fs1 fin with
      | None => None
      | Some t => Some (put fs1 fout (concat (map (switch_line d) (lines (universal t)))))
      end
  end.
