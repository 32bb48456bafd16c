(** Model of xboa/common/_common.py 158-250: nd_newton_raphson1 and nd_newton_raphson2.

    Floats are real numbers.  y_function is a function that depends on its argument only and
    does not change it.  numpy.linalg.inv is an argument ([None]: LinAlgError).  Not modelled:
    the lines printed; numpy.matrix(str(l)) is the row l (206, 223). *)
From Coq Require Import Reals ZArith List Bool.
From Verif Require Import PyLibModel HitPyModel BunchModel CommonModel EllipseModel TransformModel FitModel.
Import ListNotations.
Open Scope R_scope.

Inductive NErr := NIndexError | NRuntimeError | NZeroDivision.

(** What a call returns, and the arguments y_function was called with, in order. *)
Definition NResult : Type := list (list (list R)) * (NErr + list R).

(** 217: one coordinate made periodic with the limits; x - d * floor(x / d - lower). *)
Definition wrap (lower upper x : R) : R := x - (upper - lower) * IZR (Int_part (x / (upper - lower) - lower)).

(** 215-217: x_list[0] made periodic. *)
Fixpoint wrap_all (lower upper x : list R) {struct x} : NErr + list R :=
  match x with
  | [] => inr []
  | v :: r =>
      match lower, upper with
      | l :: lr, u :: ur =>
          if Req_EM_T (u - l) 0 then inl NZeroDivision
          else match wrap_all lr ur r with
               | inr r' => inr (wrap l u v :: r')
               | inl e => inl e
               end
      | _, _ => inl NIndexError
      end
  end.
Definition wrapped (limits : option (list R * list R)) (x : list R) : NErr + list R :=
  match limits with Some (l, u) => wrap_all l u x | None => inr x end.

(** 218-220: x_list: x itself and x moved by one of the deltas; [None]: IndexError. *)
Definition x_points (x delta : list R) : option (list (list R)) :=
  match all_some (map (fun i => match nth_error delta i with
                                | Some d => Some (set_nth x i (nth i x 0 + d))
                                | None => None
                                end) (seq 0 (List.length x))) with
  | Some l => Some (x :: l)
  | None => None
  end.

(** 230-236: the columns of the jacobian.  [inr None]: a delta is below the tolerance. *)
Fixpoint columns (k : nat) (i : nat) (delta y0 : list R) (ys : list (list R)) (n_tol n : nat)
  : NErr + option (list (list R)) :=
  match k with
  | O => inr (Some [])
  | S k' =>
      match nth_error delta i with
      | None => inl NIndexError
      | Some d =>
          if Rlt_dec (Rabs d) float_tolerance then inr None
          else
            match all_some (map (fun j =>
                    match nth_error ys i with
                    | None => None
                    | Some y => match nth_error y j, nth_error y0 j with
                                | Some a, Some b => if Nat.ltb j n then Some ((a - b) / d) else None
                                | _, _ => None
                                end
                    end) (seq 0 n_tol)) with
            | None => inl NIndexError
            | Some col =>
                match columns k' (S i) delta y0 ys n_tol n with
                | inr (Some cols) => inr (Some (col :: cols))
                | other => other
                end
            end
      end
  end.

(** 214, 235: the matrix with these columns; rows that are not set are 0. *)
Definition jacobian (n : nat) (cols : list (list R)) : Matrix :=
  matrix_of n (fun j i => nth j (nth i cols []) 0).

(** 243-247: done, if all the values are within the tolerances; [None]: IndexError. *)
Definition within (n : nat) (y tol : list R) : option bool :=
  match all_some (map (fun i => match nth_error y i, nth_error tol i with
                                | Some v, Some t => Some (if Rlt_dec t (Rabs v) then false else true)
                                | _, _ => None
                                end) (seq 0 n)) with
  | Some l => Some (forallb (fun b => b) l)
  | None => None
  end.

Section Newton.
  Variable inv : Matrix -> option Matrix.
  Variable y_function : list (list R) -> list (list R).

  (** 212-250: the loop; [count] iterations are left. *)
  Fixpoint newton_loop (count : nat) (limits : option (list R * list R)) (tol x delta : list R) : NResult :=
    match count with
    | O => ([], inr x)
    | S count' =>
        match wrapped limits x with
        | inl e => ([], inl e)
        | inr x =>
            let n := List.length x in
            match x_points x delta with
            | None => ([], inl NIndexError)
            | Some pts =>
                match y_function pts with
                | [] => ([pts], inl NRuntimeError)                             (* 222-225 *)
                | y0 :: ys =>
                    match columns n 0 delta y0 ys (List.length tol) n with
                    | inl e => ([pts], inl e)
                    | inr None => ([pts], inr x)                               (* 231-233 *)
                    | inr (Some cols) =>
                        match inv (jacobian n cols), Nat.eqb (List.length y0) n with
                        | Some m, true =>
                            let step := map (fun row => - dot row y0) m in     (* 238 *)
                            match within n y0 tol with
                            | None => ([pts], inl NIndexError)
                            | Some done =>
                                let x' := vadd x step in                       (* 248 *)
                                let calls := [pts; [x']] in                    (* 249 *)
                                if done then (calls, inr x')
                                else let (rest, r) := newton_loop count' limits tol x' step in
                                     (calls ++ rest, r)
                            end
                        | _, _ => ([pts], inr x)                               (* 239-242 *)
                        end
                    end
                end
            end
        end
    end.

  (** 185-250: nd_newton_raphson2, for an int max_iteration.  Limits are used if both are lists;
      208-211 reads them. *)
  Definition newton_raphson2 (tol start deltas : list R) (max_iteration : Z)
      (limits : option (list R * list R)) : NResult :=
    let n := List.length start in
    match limits with
    | Some (l, u) =>
        if (Nat.leb n (List.length l) && Nat.leb n (List.length u))%bool
        then newton_loop (Z.to_nat max_iteration) limits tol start deltas
        else ([], inl NIndexError)
    | None => newton_loop (Z.to_nat max_iteration) limits tol start deltas
    end.
End Newton.

(** 158-183: nd_newton_raphson1. *)
Definition newton_raphson1 (inv : Matrix -> option Matrix) (y_function : list R -> list R)
    (tol start deltas : list R) (max_iteration : Z) (limits : option (list R * list R)) : NResult :=
  newton_raphson2 inv (map y_function) tol start deltas max_iteration limits.
