(** Model of xboa/algorithms/decoupled_transfer_matrix.py: DecoupledTransferMatrix.  Line
    numbers are those of that file; print_tests is not modelled.

    Arrays of complex numbers are functions of the indices.  numpy.linalg.eig and
    numpy.linalg.inv are the arguments [eig] and [inv] ([None] is LinAlgError).  Simplified:
    numbers that are not finite in the code (division of numpy floats by 0 gives a warning,
    not FloatingPointError, so that the branch 62-64 is not taken) end the construction here
    with [DNotFinite]; in the code they spread into the matrices r and t. *)
From Coq Require Import Reals List Bool Arith.
From Verif Require Import Num HitPyModel HitPySpec CommonModel EllipseModel Cplx.
Import ListNotations.
Open Scope R_scope.

Inductive DErr := DValueError | DTypeError | DLinAlgError | DNotFinite.

(** The attributes of a DecoupledTransferMatrix, 25-49. *)
Record Decoupled := mkDecoupled {
  d_dim : nat;                 (* dim *)
  d_m : nat -> nat -> R;       (* m *)
  d_phase : nat -> R;          (* phase *)
  d_v_t : nat -> nat -> R;     (* v_t *)
  d_r : CMat;                  (* r *)
  d_t : CMat }.                (* t *)

Section Decouple.
  Variable eig : list (list R) -> option ((nat -> Cx) * CMat).
  Variable inv : CMat -> option CMat.

  (** 181: det_tolerance. *)
  Definition det_tolerance : R := 1 / 1000000.

  (** cmath.sqrt of a float. *)
  Definition cmath_sqrt (x : R) : Cx := if Rlt_dec x 0 then (0, sqrt (- x)) else (sqrt x, 0).

  (** numpy.angle. *)
  Definition angle (z : Cx) : R := atan2 (snd z) (fst z).

  (** numpy.exp(1j * phi). *)
  Definition exp_i (phi : R) : Cx := (cos phi, sin phi).

  Definition cx_zero (z : Cx) : bool :=
    if Req_EM_T (fst z) 0 then if Req_EM_T (snd z) 0 then true else false else false.

  (** 58-61: beta_i and alpha_i from an eigenvector; [None] if not finite. *)
  Definition twiss (v : nat -> Cx) (j : nat) : option (R * R) :=
    if cx_zero (v j) then None
    else let ratio := cdiv (v (S j)) (v j) in
         if Req_EM_T (snd ratio) 0 then None
         else Some (1 / snd ratio, - (1 / snd ratio) * fst ratio).

  (** 53-61: eigenvector i (not 2 i) is used for block i. *)
  Definition block_twiss (evec : CMat) (i : nat) : option (R * R) :=
    twiss (fun k => evec k i) (2 * i).

  Fixpoint all_twiss (evec : CMat) (n : nat) : bool :=
    match n with
    | O => true
    | S k => (all_twiss evec k && match block_twiss evec k with Some _ => true | None => false end)%bool
    end.

  Definition beta_of (evec : CMat) (i : nat) : R :=
    match block_twiss evec i with Some (b, _) => b | None => 0 end.
  Definition alpha_of (evec : CMat) (i : nat) : R :=
    match block_twiss evec i with Some (_, a) => a | None => 0 end.

  (** 50-51, 56-57, 65-69: t_evector; entries outside the diagonal blocks are 0. *)
  Definition t_evector (evec : CMat) : CMat := fun p q =>
    if Nat.eqb (p / 2) (q / 2) then
      let i := (q / 2)%nat in
      let e := exp_i (angle (evec (2 * i)%nat i)) in
      let b := cmath_sqrt (beta_of evec i) in
      let x := if Nat.even p then cmul b e
               else cmul (cmul (cinv b) (- alpha_of evec i, 1)) e in
      if Nat.even q then x else cconj x
    else c_of 0.

  (** 52, 71-77: v_t. *)
  Definition v_t (evec : CMat) : nat -> nat -> R := fun p q =>
    if Nat.eqb (p / 2) (q / 2) then
      let i := (q / 2)%nat in
      let b := beta_of evec i in let a := alpha_of evec i in
      let sign := if Rlt_dec b 0 then -1 else 1 in
      if Nat.even p then (if Nat.even q then sign * b else - sign * a)
      else (if Nat.even q then - sign * a else sign * (1 + a * a) / b)
    else 0.

  (** 45-80: _get_decoupling. *)
  Definition get_decoupling (n : nat) (m : nat -> nat -> R) (lam : nat -> Cx) (evec : CMat)
    : DErr + Decoupled :=
    let size := (2 * n)%nat in
    if all_twiss evec n then
      match inv (t_evector evec) with
      | None => inl DLinAlgError
      | Some ti =>
          let r := cmm size evec ti in
          match inv r with
          | None => inl DLinAlgError
          | Some ri =>
              inr (mkDecoupled n m (fun i => angle (lam (2 * i)%nat)) (v_t evec) r
                     (cmm size ri (cmm size (fun i j => c_of (m i j)) r)))
          end
      end
    else inl DNotFinite.

  (** 18-43: the constructor.  In Python 3 [shape[0]/2] is a float: the test 28 is never
      true, and the product [None]*self.dim (42) raises TypeError. *)
  Definition construct (python3 : bool) (m : list (list R)) : DErr + Decoupled :=
    let size := List.length m in
    if negb (is_square m) then inl DValueError
    else if (negb python3 && negb (Nat.eqb (size / 2 * 2) size))%bool then inl DValueError
    else if Rlt_dec det_tolerance (Rabs (det m - 1)) then inl DValueError
    else match eig m with
         | None => inl DLinAlgError
         | Some (lam, evec) =>
             if python3 then inl DTypeError
             else get_decoupling (size / 2) (ent m) lam evec
         end.
End Decouple.

(** 82-101: get_v_m. *)
Definition get_v_m (d : Decoupled) (eps : list R) : DErr + (nat -> nat -> R) :=
  if Nat.eqb (List.length eps) (d_dim d) then
    let size := (2 * d_dim d)%nat in
    let v : CMat := fun p q => c_of (if Nat.eqb (p / 2) (q / 2)
                                     then d_v_t d p q * nth (q / 2) eps 0 else d_v_t d p q) in
    inr (fun p q => fst (cmm size (cmm size (d_r d) v) (fun i j => d_r d j i) p q))
  else inl DValueError.

(** 103-141: get_phase_advance, get_beta, get_alpha, get_gamma, for 0 <= axis < dim. *)
Definition get_phase_advance (d : Decoupled) (axis : nat) : R := d_phase d axis.
Definition get_beta (d : Decoupled) (axis : nat) : R := d_v_t d (2 * axis) (2 * axis).
Definition get_alpha (d : Decoupled) (axis : nat) : R := - d_v_t d (2 * axis + 1) (2 * axis).
Definition get_gamma (d : Decoupled) (axis : nat) : R := d_v_t d (2 * axis + 1) (2 * axis + 1).
