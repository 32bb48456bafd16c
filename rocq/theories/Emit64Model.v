(** Model of the emittance and the Twiss parameters of a bunch in double precision.
    Source: xboa/bunch/_bunch.py 885-911 (get_beta), 913-939 (get_gamma), 941-968 (get_alpha), 1079-1116
    (get_emittance).  The statistics are those of MomentModel over binary64.

    The determinant (numpy.linalg.det) and the power of a numpy float are parameters [det] and [pow].
    Simplified: no covariance matrix is stored with set_covariance_matrix; the argument geometric of the Twiss
    parameters is left out, the class variable [flag] decides. *)
From Coq Require Import ZArith List Bool String.
From Flocq Require Import Core BinarySingleNaN.
From Verif Require Import Num WeightModel HitcoreModel PyLibModel HitPyModel BunchModel MomentModel BunchNumModel EllipseModel
  FloatModel Bin64Model Shell64Model Derive64Model.
Import ListNotations.
Open Scope string_scope.
Open Scope list_scope.

Notation Matrix64 := (list (list b64)).
Notation World64 := (World B64Num).

(** A determinant by elimination with the larger of the two entries of the first column as pivot, for matrices of two
    rows (what numpy.linalg.det does for them; zero if the pivot is zero). *)
Definition lu_det (m : Matrix64) : b64 :=
  match m with
  | [[a; b]; [c; d]] =>
      if flt (fabs a) (fabs c) then fopp (fmul c (fsub b (fmul (fdiv a c) d)))
      else if feq a fzero then fzero
      else fmul a (fsub d (fmul (fdiv c a) b))
  | _ => B754_nan
  end.

(** / of Python floats. *)
Definition div_py (a b : b64) : MErr + b64 := if feq b fzero then inl MZeroDivision else inr (fdiv a b).

Section Emittance64.
  Variable det : Matrix64 -> b64.
  Variable pow : b64 -> b64 -> b64.
  Variable extra : World64 -> list nat -> string -> nat -> option (PyVal B64Num).
  Variable flag : bool.

  (** self.mean([v])[v]. *)
  Definition mean64 (w : World64) (b : Bunch) (v : string) : MErr + b64 :=
    d <- mean extra no_fixed w b [v] ;;
    match assoc d v with
    | Some x => match as_num x with Some y => inr (y : b64) | None => inl MOther end
    | None => inl MKeyError
    end.

  (** self.hits()[0].get(k). *)
  Definition first64 (w : World64) (b : Bunch) (k : string) : MErr + b64 :=
    match b_hits b with
    | [] => inl MOther
    | l :: _ => match hit_get w l k with
                | Some x => match as_num x with Some y => inr (y : b64) | None => inl MOther end
                | None => inl MOther
                end
    end.

  (** _bunch.py 1079-1116: get_emittance. *)
  Definition emittance64 (w : World64) (b : Bunch) (axes : list string) (cov : option Matrix64) : MErr + b64 :=
    match covariance_list axes flag with
    | None => inl MOther
    | Some vars =>
        m <- (match cov with Some m => inr m | None => covariance_matrix extra no_fixed w b vars [] end) ;;
        if forallb (fun r => Nat.eqb (List.length r) (List.length m)) m then
          match vars with
          | [] => inl MZeroDivision
          | _ =>
              let e := pow (det m) (fdiv (b64_of_Z 1) (b64_of_Z (Z.of_nat (List.length vars)))) in
              if flag then inr e
              else mass <- first64 w b "mass" ;; inr (fdiv e mass)
          end
        else inl MOther
    end.

  (** The sum of f over the axes, left at the first exception. *)
  Fixpoint sum64 (f : string -> MErr + b64) (axes : list string) (acc : b64) : MErr + b64 :=
    match axes with
    | [] => inr acc
    | a :: r => x <- f a ;; sum64 f r (fadd acc x)
    end.

  (** self.moment([u, v], self.mean([u, v])). *)
  Definition cov64 (w : World64) (b : Bunch) (u v : string) : MErr + b64 :=
    d <- mean extra no_fixed w b [u; v] ;; moment extra no_fixed w b [u; v] d.
  (** self.moment([u, u], self.mean([u])). *)
  Definition variance64 (w : World64) (b : Bunch) (u : string) : MErr + b64 :=
    d <- mean extra no_fixed w b [u] ;; moment extra no_fixed w b [u; u] d.

  Definition count64 (axes : list string) : b64 := b64_of_Z (Z.of_nat (List.length axes)).

  (** _bunch.py 885-911: get_beta. *)
  Definition beta64 (w : World64) (b : Bunch) (axes : list string) : MErr + b64 :=
    e <- emittance64 w b axes None ;;
    beta <- sum64 (variance64 w b) axes fzero ;;
    if flag then div_py beta (fmul e (count64 axes))
    else
      p <- mean64 w b "p" ;;
      mass <- first64 w b "mass" ;;
      y <- div_py p (fmul (fmul e mass) (count64 axes)) ;; inr (fmul beta y).

  (** _bunch.py 913-939: get_gamma. *)
  Definition gamma64 (w : World64) (b : Bunch) (axes : list string) : MErr + b64 :=
    e <- emittance64 w b axes None ;;
    gamma <- sum64 (fun a => match momentum_variable a flag with
                             | Some m => variance64 w b m
                             | None => inl MOther end) axes fzero ;;
    g <- (if flag then inr gamma
          else p <- mean64 w b "p" ;; mass <- first64 w b "mass" ;; div_py gamma (fmul p mass)) ;;
    div_py g (fmul e (count64 axes)).

  (** _bunch.py 941-968: get_alpha. *)
  Definition alpha64 (w : World64) (b : Bunch) (axes : list string) : MErr + b64 :=
    e <- emittance64 w b axes None ;;
    alpha <- sum64 (fun a => match momentum_variable a flag with
                             | Some m => cov64 w b a m
                             | None => inl MOther end) axes fzero ;;
    y <- (if flag then div_py alpha (fmul e (count64 axes))
          else mass <- first64 w b "mass" ;; div_py alpha (fmul (fmul e mass) (count64 axes))) ;;
    inr (fopp y).
End Emittance64.

(** Values of hits that are not stored: only the momentum "p", hit.py 561-563 (norm64 of Derive64Model); other names
    are left out. *)
Definition extra_p (L : PowLib) (w : World64) (hits : list nat) (k : string) (l : nat) : option (PyVal B64Num) :=
  if String.eqb k "p" then
    match hit_get w l "px", hit_get w l "py", hit_get w l "pz" with
    | Some (PFloat a), Some (PFloat b), Some (PFloat c) =>
        match norm64 L a b c with inr x => Some (@PFloat B64Num x) | inl _ => None end
    | _, _, _ => None
    end
  else None.
