(** xboa/bunch/_bunch.py 527-560: transform_to. *)
From Coq Require Import Reals List Bool String.
From Verif Require Import Num HitcoreModel BunchModel HitPyModel MomentModel BunchNumModel
  CommonModel HitPySpec MomentSpec EllipseModel.
Import ListNotations.
Open Scope R_scope.

Section Transform.
  Variable extra : RWorld -> list nat -> string -> nat -> option RVal.
  (** numpy.linalg.eigh and numpy.linalg.inv; [None] is LinAlgError. *)
  Variable eigh : Matrix -> option (list R * Matrix).
  Variable inv : Matrix -> option Matrix.

  Definition matrix_of (n : nat) (f : nat -> nat -> R) : Matrix :=
    map (fun i => map (f i) (seq 0 n)) (seq 0 n).

  (** Product of n by n matrices (numpy.matrix). *)
  Definition matrix_mul (n : nat) (a b : Matrix) : Matrix :=
    matrix_of n (fun i j => sum_n n (fun k => ent a i k * ent b k j)).

  Definition is_shape (n : nat) (m : Matrix) : bool :=
    (Nat.eqb (List.length m) n && forallb (fun r => Nat.eqb (List.length r) n) m)%bool.

  (** _bunch.py 547-549 (and 552-555): evecs times the diagonal matrix of evals ** 0.5.
      Simplified: a negative eigenvalue gives nan, which spreads to all hits; here it is an
      error, as is a shape that does not fit (ValueError, IndexError). *)
  Definition half (n : nat) (e : list R * Matrix) : MErr + Matrix :=
    let (evals, evecs) := e in
    if (Nat.eqb (List.length evals) n && is_shape n evecs &&
        forallb (fun x => if Rlt_dec x 0 then false else true) evals)%bool then
      inr (matrix_mul n evecs
             (matrix_of n (fun i j => if Nat.eqb i j then sqrt (nth i evals 0) else 0)))
    else inl MOther.

  (** _bunch.py 546-559.  Simplified: if the determinant is 0 the quotient 559 is nan; here
      that is an error. *)
  Definition transform_matrix (fx : Fixed RNum) (w : RWorld) (b : Bunch) (ks : list string)
      (target : Matrix) (origin : list (string * R)) : MErr + Matrix :=
    let n := List.length ks in
    c <- covariance_matrix extra fx w b ks (float_values origin) ;;
    match eigh c with
    | None => inl MOther
    | Some e =>
        s <- half n e ;;
        match inv s with
        | None => inl MOther
        | Some unite =>
            match eigh target with
            | None => inl MOther
            | Some e' =>
                ununite <- half n e' ;;
                let t := matrix_mul n ununite unite in
                match root (Rabs (det t)) n with
                | None => inl MOther
                | Some r =>
                    if Req_EM_T r 0 then inl MOther
                    else inr (matrix_of n (fun i j => ent t i j / r))
                end
            end
        end
    end.

  (** _bunch.py 527-560: transform_to. *)
  Definition transform_to (fx : Fixed RNum) (w : RWorld) (b : Bunch) (ks : list string)
      (target : Matrix) (trans origin : list (string * R)) (ms : string)
    : MErr + RWorld * option PyErr :=
    m <- transform_matrix fx w b ks target origin ;;
    inr (bunch_abelian w b ks m trans origin ms).
End Transform.
