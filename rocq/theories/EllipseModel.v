(** Model of the ellipses, emittances, Twiss parameters, angular momenta and amplitudes of
    Bunch, over the reals.  Source: xboa/bunch/_bunch.py.

    Simplifications common to the file: floats are real numbers; numpy.linalg.det is the
    determinant (expansion along the first row); numpy.linalg.inv is the argument [inv];
    a result that is nan or infinite in numpy arithmetic is [None].  The class variable
    Bunch.__geometric_momentum is the argument [flag]. *)
From Coq Require Import Reals ZArith List Bool String.
From Verif Require Import Num WeightModel HitcoreModel PyLibModel BunchModel HitPyModel
  MomentModel BunchNumModel HitPySpec CommonModel.
Import ListNotations.
Open Scope string_scope.
Open Scope list_scope.
Open Scope R_scope.

Notation Matrix := (list (list R)).

(** Sequencing of calls that may raise. *)
Definition bindE {A B} (e : MErr + A) (k : A -> MErr + B) : MErr + B :=
  match e with inr x => k x | inl er => inl er end.
Notation "x <- e ;; k" := (bindE e (fun x => k)) (at level 61, e at next level, right associativity).

(** a / b on Python floats. *)
Definition divE (a b : R) : MErr + R := if Req_EM_T b 0 then inl MZeroDivision else inr (a / b).

(** ---- names, 1148-1165, 1204-1236, 1907 --------------------------------------------------- *)

(** _bunch.py 1907: Bunch.__axis_list. *)
Definition axis_list : list string := ["x"; "y"; "z"; "t"; "ct"].

(** _bunch.py 1148-1165: momentum_variable; [None] is IndexError.  The branch for integers
    (1154-1158) is never reached: integers are not in the list. *)
Definition momentum_variable (axis : string) (geo : bool) : option string :=
  match index_of axis_list axis with
  | None => None
  | Some _ =>
      if geo then Some (axis ++ "'")%string
      else if (String.eqb axis "t" || String.eqb axis "ct")%bool then Some "energy"
      else Some ("p" ++ axis)%string
  end.

(** _bunch.py 1204-1217: axis_list_to_covariance_list. *)
Fixpoint covariance_list (axes : list string) (geo : bool) : option (list string) :=
  match axes with
  | [] => Some []
  | a :: r =>
      match momentum_variable a geo, covariance_list r geo with
      | Some m, Some l => Some (a :: m :: l)
      | _, _ => None
      end
  end.

(** _bunch.py 1219-1236: convert_string_to_axis_list after the string was read as a list of
    names (eval or split, not modelled); [None] is KeyError. *)
Definition check_axis_list (names : list string) : option (list string) :=
  if forallb (fun k => existsb (String.eqb k) axis_list) names then Some names else None.

(** A geometric argument that defaults to the class variable. *)
Definition choose (flag : bool) (arg : option bool) : bool :=
  match arg with Some g => g | None => flag end.

(** _bunch.py 1881-1894: __cov_mat_picker; [inr None]: nothing is stored; the error is the
    ValueError of list.index. *)
Definition cov_picker (fx : Fixed RNum) (axes : list string) : MErr + option Matrix :=
  match f_covs fx with
  | None => inr None
  | Some covs =>
      match all_some (map (index_of axis_list) axes) with
      | None => inl MOther
      | Some ind =>
          inr (Some
            (map (fun i => map (fun j =>
                covs (2 * nth (i / 2) ind 0 + i mod 2)%nat (2 * nth (j / 2) ind 0 + j mod 2)%nat)
              (seq 0 (2 * List.length ind))) (seq 0 (2 * List.length ind))))
      end
  end.

(** _bunch.py 1896-1904: __mean_picker; the empty dict if a mean is missing. *)
Definition mean_picker (flag : bool) (fx : Fixed RNum) (axes : list string)
  : MErr + list (string * RVal) :=
  match f_means fx with
  | [] => inr []
  | _ =>
      match covariance_list axes flag with
      | None => inl MOther
      | Some l =>
          match all_some (map (fun v => option_map (pair v) (assoc (f_means fx) v)) l) with
          | Some d => inr d
          | None => inr []
          end
      end
  end.

(** _bunch.py 759-781: set_covariance_matrix, for the class variable False (which is also what
    [fixed_cov] of MomentModel assumes). *)
Definition set_covariance_matrix (extra : RWorld -> list nat -> string -> nat -> option RVal)
    (use : bool) (cov : option (nat -> nat -> R)) (means : list (string * RVal))
    (fx : Fixed RNum) (w : RWorld) (b : Bunch) : MErr + Fixed RNum :=
  if use then
    covs <- (match cov with
             | Some m => inr m
             | None => c <- covariance_matrix extra fx w b cov_variables [] ;; inr (ent c)
             end) ;;
    ms <- (match means with
           | _ :: _ => inr means
           | [] => mean extra (mkFixed (Some (covs : nat -> nat -> Num.num RNum)) (f_means fx)) w b cov_variables
           end) ;;
    inr (mkFixed (Some (covs : nat -> nat -> Num.num RNum)) ms)
  else inr no_fixed.

(** _bunch.py 783-790: covariances_set and means_set. *)
Definition covariances_set (fx : Fixed RNum) : bool :=
  match f_covs fx with Some _ => true | None => false end.
Definition means_set (fx : Fixed RNum) : bool :=
  match f_means fx with [] => false | _ => true end.

(** ---- matrices ------------------------------------------------------------------------------ *)

(** numpy.linalg.det. *)
Fixpoint det_n (n : nat) (m : nat -> nat -> R) : R :=
  match n with
  | O => 1
  | S k => sum_n (S k) (fun j =>
             (-1) ^ j * m 0%nat j * det_n k (fun a b => m (S a) (if Nat.ltb b j then b else S b)))
  end.
Definition det (m : Matrix) : R := det_n (List.length m) (ent m).

Definition is_square (m : Matrix) : bool :=
  forallb (fun r => Nat.eqb (List.length r) (List.length m)) m.

(** ---- ellipses, 1411-1505 ------------------------------------------------------------------- *)

(** _bunch.py 1411-1444: build_ellipse_2d. *)
Definition build_ellipse_2d (beta alpha emittance p mass : R) (geometric : bool) : MErr + Matrix :=
  gamma <- divE (1 + alpha * alpha) beta ;;
  if Rle_dec beta 0 then inl MOther
  else if Rle_dec emittance 0 then inl MOther
  else if geometric then
    inr [[beta * emittance; - alpha * emittance]; [- alpha * emittance; gamma * emittance]]
  else
    xx <- divE (beta * emittance * mass) p ;;
    inr [[xx; - alpha * emittance * mass];
         [- alpha * emittance * mass; gamma * emittance * mass * p]].

(** _bunch.py 1470-1505: build_penn_ellipse. *)
Definition build_penn_ellipse (emittance_t mass beta_t alpha_t p Ltwiddle_t bz q : R)
  : MErr + Matrix :=
  if Rle_dec beta_t 0 then inl MOther
  else if Rle_dec emittance_t 0 then inl MOther
  else if Rle_dec mass 0 then inl MOther
  else
    k <- divE (c_light * bz / 2) p ;;
    let gamma_t := (1 + alpha_t * alpha_t +
                    (beta_t * k - Ltwiddle_t) * (beta_t * k - Ltwiddle_t)) / beta_t in
    let s_xx := emittance_t * mass * beta_t / p in
    let s_xpx := - emittance_t * mass * alpha_t in
    let s_pxpx := emittance_t * mass * p * gamma_t in
    let s_xpy := - emittance_t * mass * (beta_t * k - Ltwiddle_t) * q in
    inr [[s_xx; s_xpx; 0; s_xpy];
         [s_xpx; s_pxpx; - s_xpy; 0];
         [0; - s_xpy; s_xx; s_xpx];
         [s_xpy; 0; s_xpx; s_pxpx]].

Section Ellipse.
  Variable extra : RWorld -> list nat -> string -> nat -> option RVal.
  Variable flag : bool.

  (** self.mean([v])[v], as a number. *)
  Definition mean_of (fx : Fixed RNum) (w : RWorld) (b : Bunch) (v : string) : MErr + R :=
    d <- mean extra fx w b [v] ;;
    match assoc d v with
    | Some x => match as_num x with Some y => inr (y : R) | None => inl MOther end
    | None => inl MKeyError
    end.

  (** self.hits()[0].get(k) of a stored variable. *)
  Definition first_hit (w : RWorld) (b : Bunch) (k : string) : MErr + R :=
    match b_hits b with
    | [] => inl MOther
    | l :: _ => match hit_get w l k with
                | Some x => match as_num x with Some y => inr (y : R) | None => inl MOther end
                | None => inl MOther
                end
    end.

  (** x ** (1./n) of a numpy float: nan ([None]) if x is negative. *)
  Definition root (x : R) (n : nat) : option R :=
    if Rlt_dec x 0 then None else Some (power x (1 / INR n)).

  (** The matrix of _bunch.py 1107-1112 and 1194-1199: the one given, the one stored, the
      one calculated from the hits. *)
  Definition pick_cov (fx : Fixed RNum) (w : RWorld) (b : Bunch) (axes vars : list string)
      (cov : option Matrix) : MErr + Matrix :=
    match cov with
    | Some m => inr m
    | None =>
        pm <- cov_picker fx axes ;;
        match pm with
        | Some m => inr m
        | None => covariance_matrix extra fx w b vars []
        end
    end.

  (** _bunch.py 1079-1116: get_emittance.  The argument geometric is not used.  A matrix that
      is not square raises LinAlgError; an empty axis list ZeroDivisionError (1./0). *)
  Definition get_emittance (fx : Fixed RNum) (w : RWorld) (b : Bunch) (axes : list string)
      (cov : option Matrix) : MErr + option R :=
    match covariance_list axes flag with
    | None => inl MOther
    | Some vars =>
        m <- pick_cov fx w b axes vars cov ;;
        if is_square m then
          match vars with
          | [] => inl MZeroDivision
          | _ =>
              let e := root (det m) (List.length vars) in
              if flag then inr e
              else
                mass <- first_hit w b "mass" ;;
                inr (match e with
                     | Some x => if Req_EM_T mass 0 then None else Some (x / mass)
                     | None => None
                     end)
          end
        else inl MOther
    end.

  (** The sum of f over the axes, left at the first exception. *)
  Fixpoint sum_axes (f : string -> MErr + R) (axes : list string) (acc : R) : MErr + R :=
    match axes with
    | [] => inr acc
    | a :: r => x <- f a ;; sum_axes f r (acc + x)
    end.

  (** self.moment([u, v], self.mean([u, v])). *)
  Definition cov_about_mean (fx : Fixed RNum) (w : RWorld) (b : Bunch) (u v : string) : MErr + R :=
    d <- mean extra fx w b [u; v] ;; moment extra fx w b [u; v] d.

  (** The quotient by something that contains the emittance, which may be nan. *)
  Definition over_emittance (e : option R) (f : R -> MErr + R) : MErr + option R :=
    match e with Some x => y <- f x ;; inr (Some y) | None => inr None end.

  (** _bunch.py 885-911: get_beta. *)
  Definition get_beta (fx : Fixed RNum) (w : RWorld) (b : Bunch) (axes : list string)
      (geometric : option bool) : MErr + option R :=
    let geo := choose flag geometric in
    e <- get_emittance fx w b axes None ;;
    beta <- sum_axes (variance extra fx w b) axes 0 ;;
    if geo then
      over_emittance e (fun x => divE beta (x * INR (List.length axes)))
    else
      p <- mean_of fx w b "p" ;;
      mass <- first_hit w b "mass" ;;
      over_emittance e (fun x => y <- divE p (x * mass * INR (List.length axes)) ;; inr (beta * y)).

  (** _bunch.py 913-939: get_gamma. *)
  Definition get_gamma (fx : Fixed RNum) (w : RWorld) (b : Bunch) (axes : list string)
      (geometric : option bool) : MErr + option R :=
    let geo := choose flag geometric in
    e <- get_emittance fx w b axes None ;;
    gamma <- sum_axes (fun a => match momentum_variable a geo with
                                | Some m => variance extra fx w b m
                                | None => inl MOther end) axes 0 ;;
    g <- (if geo then inr gamma
          else p <- mean_of fx w b "p" ;; mass <- first_hit w b "mass" ;; divE gamma (p * mass)) ;;
    over_emittance e (fun x => divE g (x * INR (List.length axes))).

  (** _bunch.py 941-968: get_alpha. *)
  Definition get_alpha (fx : Fixed RNum) (w : RWorld) (b : Bunch) (axes : list string)
      (geometric : option bool) : MErr + option R :=
    let geo := choose flag geometric in
    e <- get_emittance fx w b axes None ;;
    alpha <- sum_axes (fun a => match momentum_variable a geo with
                                | Some m => cov_about_mean fx w b a m
                                | None => inl MOther end) axes 0 ;;
    if geo then
      over_emittance e (fun x => y <- divE alpha (x * INR (List.length axes)) ;; inr (- y))
    else
      mass <- first_hit w b "mass" ;;
      over_emittance e (fun x => y <- divE alpha (x * mass * INR (List.length axes)) ;; inr (- y)).

  (** _bunch.py 970-984: get_dispersion, and 999-1014: get_dispersion_prime with
      v the momentum variable of the axis (the class variable is not consulted). *)
  Definition dispersion_of (fx : Fixed RNum) (w : RWorld) (b : Bunch) (v : string) : MErr + R :=
    c <- moment extra fx w b [v; "energy"] [] ;;
    e <- mean_of fx w b "energy" ;;
    vv <- moment extra fx w b ["energy"; "energy"] [] ;;
    divE (c * e) vv.
  Definition get_dispersion := dispersion_of.
  Definition get_dispersion_prime (fx : Fixed RNum) (w : RWorld) (b : Bunch) (axis : string)
      (geometric : bool) : MErr + R :=
    match momentum_variable axis geometric with
    | Some m => dispersion_of fx w b m
    | None => inl MOther
    end.

  (** _bunch.py 986-996: get_dispersion_rsquared. *)
  Definition get_dispersion_rsquared (fx : Fixed RNum) (w : RWorld) (b : Bunch) : MErr + R :=
    re <- moment extra fx w b ["r_squared"; "energy"]
            [("r_squared", @PFloat RNum 0); ("energy", @PFloat RNum 0)] ;;
    xx <- moment extra fx w b ["x"; "x"] [] ;;
    yy <- moment extra fx w b ["y"; "y"] [] ;;
    e <- mean_of fx w b "energy" ;;
    vv <- moment extra fx w b ["energy"; "energy"] [] ;;
    divE ((re - (xx + yy) * e) * e) vv.

  (** _bunch.py 1118: the default of rotation_axis_dict (integers). *)
  Definition default_axis : list (string * RVal) :=
    [("x", PInt 0%Z); ("y", PInt 0%Z); ("px", PInt 0%Z); ("py", PInt 0%Z);
     ("x'", PInt 0%Z); ("y'", PInt 0%Z)].

  (** _bunch.py 1118-1130: get_kinetic_angular_momentum. *)
  Definition kinetic_angular_momentum (fx : Fixed RNum) (w : RWorld) (b : Bunch)
      (axis : list (string * RVal)) : MErr + R :=
    if flag then
      a <- moment extra fx w b ["x"; "y'"] axis ;;
      c <- moment extra fx w b ["y"; "x'"] axis ;;
      p <- mean_of fx w b "pz" ;;
      inr ((a - c) * p)
    else
      a <- moment extra fx w b ["x"; "py"] axis ;;
      c <- moment extra fx w b ["y"; "px"] axis ;;
      inr (a - c).

  (** _bunch.py 1132-1146: get_canonical_angular_momentum. *)
  Definition canonical_angular_momentum (fx : Fixed RNum) (w : RWorld) (b : Bunch)
      (bz : option R) (field_axis axis : list (string * RVal)) : MErr + R :=
    bz' <- (match bz with Some x => inr x | None => first_hit w b "bz" end) ;;
    l <- kinetic_angular_momentum fx w b axis ;;
    xx <- moment extra fx w b ["x"; "x"] field_axis ;;
    yy <- moment extra fx w b ["y"; "y"] field_axis ;;
    inr (l + c_light * bz' * (xx + yy) / 2).

  Variable inv : Matrix -> option Matrix.

  (** _hit.py 234-249: get_vector(variables, origin).  The names of a covariance list are
      hit variables, for which get_hit_variable is hit.get. *)
  Fixpoint hit_vector (w : RWorld) (b : Bunch) (l : nat) (vars : list string)
      (origin : list (string * RVal)) : MErr + list R :=
    match vars with
    | [] => inr []
    | v :: r =>
        match get_hit_variable extra w (b_hits b) v l with
        | Some x =>
            match as_num x, (match assoc origin v with Some o => as_num o | None => Some (0 : Num.num RNum) end) with
            | Some y, Some o => rest <- hit_vector w b l r origin ;; inr ((y - o) :: rest)
            | _, _ => inl MOther
            end
        | None => inl MOther
        end
    end.

  (** _bunch.py 1167-1202: get_amplitude.  Matrices that do not fit raise. *)
  Definition get_amplitude (fx : Fixed RNum) (w : RWorld) (b : Bunch) (l : nat)
      (axes : list string) (cov : option Matrix) (means : list (string * RVal))
      (geometric : option bool) : MErr + option R :=
    match covariance_list axes (choose flag geometric) with
    | None => inl MOther
    | Some vars =>
        d <- (match means with
              | _ :: _ => inr means
              | [] => pm <- mean_picker flag fx axes ;;
                      match pm with
                      | _ :: _ => inr pm
                      | [] => mean extra fx w b vars
                      end
              end) ;;
        v <- hit_vector w b l vars d ;;
        m <- pick_cov fx w b axes vars cov ;;
        match inv m with
        | None => inl MOther
        | Some mi =>
            if Nat.eqb (List.length mi) (List.length v) then
              e <- get_emittance fx w b axes (Some m) ;;
              inr (option_map (Rmult (qform mi v)) e)
            else inl MOther
        end
    end.
End Ellipse.

(** ---- new_hit_shell, 379-401 ------------------------------------------------------------------ *)

(** Hit.new_from_dict(defaults) (_hit.py 138-153): the loop over the dict. *)
Fixpoint set_all (s : PSt) (d : list (string * RVal)) : PSt * option PyErr :=
  match d with
  | [] => (s, None)
  | (k, v) :: r => match py_set s k v with
                   | (s', None) => set_all s' r
                   | (s', Some e) => (s', Some e)
                   end
  end.

(** _bunch.py 397-398: bunch[-1][var] += vector[0,i]; IndexError if the vector is too short. *)
Fixpoint add_vector (s : PSt) (vars : list string) (v : list R) : PSt * option PyErr :=
  match vars, v with
  | [], _ => (s, None)
  | _ :: _, [] => (s, Some EIndexError)
  | k :: r, x :: v' =>
      match py_get s k with
      | inl e => (s, Some e)
      | inr y =>
          match py_add y (@PFloat RNum x) with
          | inl e => (s, Some e)
          | inr z => match py_set s k z with
                     | (s', None) => add_vector s' r v'
                     | (s', Some e) => (s', Some e)
                     end
          end
      end
  end.

(** _bunch.py 396-400: one hit. *)
Definition shell_hit (c : RCtx) (defaults : list (string * RVal)) (vars : list string)
    (v : list R) (ev : Z) (ms : string) : PSt * option PyErr :=
  match set_all (hit_new, c) defaults with
  | (s, Some e) => (s, Some e)
  | (s, None) =>
      match add_vector s vars v with
      | (s1, Some e) => (s1, Some e)
      | (s1, None) =>
          match py_set s1 "event_number" (PInt ev) with
          | (s2, Some e) => (s2, Some e)
          | (s2, None) => let (h, r) := mass_shell (fst s2) ms in ((h, snd s2), ms_err r)
          end
      end
  end.

(** _bunch.py 393-401: the loop.  A vector of nan, which make_shell gives for a degenerate
    ellipse, ends the model with EFloatingPoint (the code stores nan). *)
Fixpoint shell_hits (c : RCtx) (defaults : list (string * RVal)) (vars : list string)
    (vs : list (option (list R))) (ev : Z) (ms : string) : PyErr + (list RHit * RCtx) :=
  match vs with
  | [] => inr ([], c)
  | None :: _ => inl EFloatingPoint
  | Some v :: r =>
      match shell_hit c defaults vars v ev ms with
      | (_, Some e) => inl e
      | ((h, c'), None) =>
          match shell_hits c' defaults vars r (ev + 1) ms with
          | inr (hs, c'') => inr (h :: hs, c'')
          | inl e => inl e
          end
      end
  end.

(** _bunch.py 379-401: new_hit_shell. *)
Definition new_hit_shell (inv : Matrix -> option Matrix) (c : RCtx) (n : nat) (ellipse : Matrix)
    (vars : list string) (ms : string) (defaults : list (string * RVal))
  : option (PyErr + (list RHit * RCtx)) :=
  match make_shell inv n ellipse None with
  | inl _ => None
  | inr vs => Some (shell_hits c defaults vars vs 0 ms)
  end.
