(** Tracking with transfer matrices: xboa/tracking/_matrix_tracking.py and
    _tracking_base.py, over the reals.

    Simplified: a numpy matrix is a list of rows, all of the length of the first one. *)
From Coq Require Import Reals List Bool String.
From Verif Require Import Num HitcoreModel HitPyModel.
Import ListNotations.
Open Scope string_scope.
Open Scope R_scope.

(** An argument of the constructor: a numpy.matrix or something else. *)
Inductive Arg := AMat (m : list (list R)) | AOther.

Inductive InitErr := IIndexError | ITypeError.

(** numpy shape. *)
Definition shape_of (m : list (list R)) : nat * nat :=
  (List.length m, match m with [] => 0%nat | r :: _ => List.length r end).

(** _matrix_tracking.py 50-56 and 57-63: type and shape of one argument. *)
Definition check_arg (n k : nat) (a : Arg) : bool :=
  match a with
  | AOther => false
  | AMat m => Nat.eqb (fst (shape_of m)) n && Nat.eqb (snd (shape_of m)) k
  end.

Record MatrixTracking := mkMT {
  tm_list : list (list (list R));
  offset_list : list (list R);       (* each the only row of a matrix of shape (1, 6) *)
  offset_in : list R;
  mt_last : list (list RHit) }.

Definition rows_of (a : Arg) : list (list R) := match a with AMat m => m | AOther => [] end.
Definition only_row (a : Arg) : list R := hd [] (rows_of a).

(** _matrix_tracking.py 36-66. *)
Definition mt_init (tms offs : list Arg) (oin : Arg) : InitErr + MatrixTracking :=
  if negb (Nat.eqb (List.length offs) (List.length tms)) then inl IIndexError
  else if negb (forallb (check_arg 1 6) (offs ++ [oin])%list) then inl ITypeError
  else if negb (forallb (check_arg 6 6) tms) then inl ITypeError
  else inr (mkMT (map rows_of tms) (map only_row offs) (only_row oin) []).

(** _matrix_tracking.py 80-82, 86. *)
Definition coords : list string := ["x"; "px"; "y"; "py"; "t"; "energy"].

(** numpy: difference and sum of vectors. *)
Fixpoint vec_sub (a b : list R) : list R :=
  match a, b with x :: a', y :: b' => (x - y) :: vec_sub a' b' | _, _ => [] end.
Fixpoint vec_add (a b : list R) : list R :=
  match a, b with x :: a', y :: b' => (x + y) :: vec_add a' b' | _, _ => [] end.

(** _matrix_tracking.py 86-87: storing the coordinates one after the other. *)
Fixpoint store (s : PSt) (ks : list string) (v : list R) : PSt * option PyErr :=
  match ks, v with
  | [], _ => (s, None)
  | _ :: _, [] => (s, Some EIndexError)
  | k :: r, x :: v' =>
      match py_set s k (PFloat (x : RNum)) with
      | (s', None) => store s' r v'
      | (s', Some e) => (s', Some e)
      end
  end.

(** _matrix_tracking.py 79-88: the hit after one matrix. *)
Definition track_matrix (s : PSt) (oin : list R) (tm : list (list R)) (oout : list R)
  : PyErr + RHit :=
  match get_vector s coords with
  | inl e => inl e
  | inr v =>
      match mat_vec tm (vec_sub v oin) with
      | inl e => inl e
      | inr u =>
          match store s coords (vec_add u oout) with
          | (_, Some e) => inl e
          | (s', None) =>
              let (h', r) := mass_shell (fst s') "pz" in
              match ms_err r with Some e => inl e | None => inr h' end
          end
      end
  end.

(** _matrix_tracking.py 78-89: the loop over the matrices. *)
Fixpoint track_loop (s : PSt) (oin : list R) (tms : list (list (list R))) (offs : list (list R))
  : PyErr + list RHit :=
  match tms, offs with
  | [], _ => inr []
  | _ :: _, [] => inl EIndexError
  | tm :: tms', o :: offs' =>
      match track_matrix s oin tm o with
      | inl e => inl e
      | inr h => match track_loop s oin tms' offs' with inl e => inl e | inr l => inr (h :: l) end
      end
  end.

(** _matrix_tracking.py 68-91: track_one on a hit read in weight context c. *)
Definition track_one (t : MatrixTracking) (c : RCtx) (h : RHit)
  : MatrixTracking * (PyErr + list RHit) :=
  match track_loop (h, c) (offset_in t) (tm_list t) (offset_list t) with
  | inl e => (t, inl e)
  | inr l => (mkMT (tm_list t) (offset_list t) (offset_in t) [h :: l], inr (h :: l))
  end.

(** _tracking_base.py 46-61: track_many. *)
Fixpoint track_each (t : MatrixTracking) (c : RCtx) (hs : list RHit)
  : MatrixTracking * (PyErr + list (list RHit)) :=
  match hs with
  | [] => (t, inr [])
  | h :: r =>
      match track_one t c h with
      | (t', inl e) => (t', inl e)
      | (t', inr l) =>
          match track_each t' c r with
          | (t'', inl e) => (t'', inl e)
          | (t'', inr ls) => (t'', inr (l :: ls))
          end
      end
  end.

Definition track_many (t : MatrixTracking) (c : RCtx) (hs : list RHit)
  : MatrixTracking * (PyErr + list (list RHit)) :=
  match track_each t c hs with
  | (t', inl e) => (t', inl e)
  | (t', inr ls) => (mkMT (tm_list t') (offset_list t') (offset_in t') ls, inr ls)
  end.
