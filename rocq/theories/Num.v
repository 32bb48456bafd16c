(** Number types.

    Weights and phase space coordinates are C++ [double]s and Python floats.
    Definitions whose properties do not depend on arithmetic laws are written over
    an arbitrary record of operations, so that they also cover IEEE arithmetic. *)
From Coq Require Import Reals ZArith QArith.

Record NumOps := mkNum {
  num :> Type;
  n0 : num;
  n1 : num;
  nadd : num -> num -> num;
  nsub : num -> num -> num;
  nmul : num -> num -> num;
  ndiv : num -> num -> num;
  neqb : num -> num -> bool;   (* the == of the language *)
  nltb : num -> num -> bool;   (* the <  of the language *)
  nofZ : Z -> num;             (* conversion of an integer *)
}.

Arguments n0 {_}.
Arguments n1 {_}.
Arguments nadd {_} _ _.
Arguments nsub {_} _ _.
Arguments nmul {_} _ _.
Arguments ndiv {_} _ _.
Arguments neqb {_} _ _.
Arguments nltb {_} _ _.
Arguments nofZ {_} _.

(** The integers, used for computable witnesses. *)
Definition ZNum : NumOps :=
  mkNum Z 0%Z 1%Z Z.add Z.sub Z.mul Z.div Z.eqb Z.ltb (fun z => z).

(** The rationals, used for computable witnesses. *)
Definition Qltb (a b : Q) : bool := negb (Qle_bool b a).
Definition QNum : NumOps :=
  mkNum Q 0%Q 1%Q Qplus Qminus Qmult Qdiv Qeq_bool Qltb inject_Z.

(** The reals, used for algebraic and analytic properties. *)
Definition Reqb (a b : R) : bool := if Req_EM_T a b then true else false.
Definition Rltb (a b : R) : bool := if Rlt_dec a b then true else false.
Definition Rleb (a b : R) : bool := if Rle_dec a b then true else false.
Definition RNum : NumOps :=
  mkNum R 0%R 1%R Rplus Rminus Rmult Rdiv Reqb Rltb IZR.
