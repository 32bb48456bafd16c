(** Model of the queries of bunches by name: Bunch.get, list_get and list_get_hit_variable, over the
    reals.  Source: xboa/bunch/_bunch.py; line numbers refer to it.  Values that are nan (or, for
    a square root, complex) are [None], as in EllipseModel. *)
From Coq Require Import Reals ZArith List Bool String Ascii.
From Verif Require Import Num WeightModel HitcoreModel PyLibModel BunchModel HitPyModel
  MomentModel BunchNumModel HitPySpec CommonModel EllipseModel TableModel.
Import ListNotations.
Open Scope string_scope.
Open Scope list_scope.
Open Scope R_scope.

(** str.split(' '). *)
Fixpoint split_spaces (s word : string) : list string :=
  match s with
  | EmptyString => [word]
  | String c r => if Ascii.eqb c " " then word :: split_spaces r ""
                  else split_spaces r (word ++ String c "")%string
  end.
(** 1271-1272, 1293-1294: the axes of a name that contains "amplitude"; [None]: an ordinary variable,
    [Some None]: KeyError of 1233.  The name is read as names separated by spaces; the attempt to
    evaluate it (1229) is taken to fail. *)
Definition amplitude_axes (name : string) : option (option (list string)) :=
  match String.index 0 "amplitude" name with
  | None => None
  | Some _ => Some (check_axis_list (split_spaces (substring 10 (String.length name - 10) name) ""))
  end.

Section Query.
  Variable extra : RWorld -> list nat -> string -> nat -> option RVal.
  Variable flag : bool.
  Variable inv : Matrix -> option Matrix.

  (** 1261-1274: get_hit_variable. *)
  Definition hit_variable (fx : Fixed RNum) (w : RWorld) (b : Bunch) (name : string)
      (cov : option Matrix) (means : list (string * RVal)) (l : nat) : MErr + option R :=
    match amplitude_axes name with
    | Some None => inl MKeyError
    | Some (Some axes) => get_amplitude extra flag inv fx w b l axes cov means None
    | None =>
        match get_hit_variable extra w (b_hits b) name l with
        | Some v => match as_num v with Some x => inr (Some (x : R)) | None => inl MOther end
        | None => inl MOther
        end
    end.

  (** 1300-1301: values[i][-1] /= Common.units[list_of_units[i]]; [unit] is None if there are no
      units, and [Some None] if list_of_units[i] raises. *)
  Definition in_unit (u : option (option string)) (x : option R) : MErr + option R :=
    match u with
    | None => inr x
    | Some None => inl MOther
    | Some (Some s) => match assoc units s with
                       | None => inl MKeyError
                       | Some q => match x with
                                   | Some y => z <- divE y q ;; inr (Some z)
                                   | None => inr None
                                   end
                       end
    end.

  (** 1288-1301: one variable. *)
  Definition column_of (fx : Fixed RNum) (w : RWorld) (b : Bunch) (name : string)
      (u : option (option string)) : MErr + list (option R) :=
    cm <- (match amplitude_axes name with
           | None => inr (None, [])
           | Some None => inl MKeyError
           | Some (Some axes) =>
               match covariance_list axes flag with
               | None => inl MOther
               | Some vars => c <- covariance_matrix extra fx w b vars [] ;;
                              d <- mean extra fx w b vars ;; inr (Some c, d)
               end
           end) ;;
    all_inr (map (fun l => x <- hit_variable fx w b name (fst cm) (snd cm) l ;; in_unit u x) (b_hits b)).

  (** 1276-1302: list_get_hit_variable. *)
  Definition list_get_hit_variable (fx : Fixed RNum) (w : RWorld) (b : Bunch)
      (vars us : list string) : MErr + list (list (option R)) :=
    all_inr (map (fun i => column_of fx w b (nth i vars "")
        (match us with [] => None | _ => Some (nth_error us i) end)) (seq 0 (List.length vars))).

  (** x**0.5: complex if x is negative. *)
  Definition half_power (x : R) : option R := if Rlt_dec x 0 then None else Some (sqrt x).

  (** variable_list[0]. *)
  Definition first_of (vars : list string) : MErr + string :=
    match vars with [] => inl MOther | v :: _ => inr v end.

  (** 1304-1326, 1866-1879, 1908-1910: get. *)
  Definition bunch_get (fx : Fixed RNum) (w : RWorld) (b : Bunch) (name : string)
      (vars : list string) : MErr + option R :=
    let number (e : MErr + R) : MErr + option R := x <- e ;; inr (Some x) in
    if String.eqb name "angular_momentum" then number (kinetic_angular_momentum extra flag fx w b default_axis)
    else if String.eqb name "emittance" then get_emittance extra flag fx w b vars None
    else if String.eqb name "dispersion" then v <- first_of vars ;; number (get_dispersion extra fx w b v)
    else if String.eqb name "dispersion_prime" then v <- first_of vars ;; number (get_dispersion_prime extra fx w b v false)
    else if String.eqb name "beta" then get_beta extra flag fx w b vars None
    else if String.eqb name "alpha" then get_alpha extra flag fx w b vars None
    else if String.eqb name "gamma" then get_gamma extra flag fx w b vars None
    else if String.eqb name "moment" then number (moment extra fx w b vars [])
    else if String.eqb name "mean" then
      d <- mean extra fx w b vars ;; v <- first_of vars ;;
      match assoc d v with
      | Some x => match as_num x with Some y => inr (Some (y : R)) | None => inl MOther end
      | None => inl MKeyError
      end
    else if String.eqb name "bunch_weight" then inr (Some (bunch_weight w b : R))
    else if String.eqb name "standard_deviation" then
      v <- first_of vars ;; m <- moment extra fx w b [v; v] [] ;; inr (half_power m)
    else inl MKeyError.

  (** "<" of two floats; false for nan. *)
  Definition value_ltb (a b : option R) : bool :=
    match a, b with Some x, Some y => rltb x y | _, _ => false end.

  (** 1328-1351: list_get; the dict as the list of its bunches, each with what set_covariance_matrix has
      stored.  An exception of multisort is reported as [MOther]. *)
  Definition list_get (w : RWorld) (bunches : list (Fixed RNum * Bunch)) (names : list string)
      (axes : list (list string)) : MErr + list (list (option R)) :=
    rows <- all_inr (map (fun fb => all_inr (map (fun i =>
        match nth_error axes i with
        | None => inl MOther
        | Some a => bunch_get (fst fb) w (snd fb) (nth i names "") a
        end) (seq 0 (List.length names)))) bunches) ;;
    match multisort value_ltb (map (fun i => map (fun r => nth i r None) rows) (seq 0 (List.length names))) with
    | inl _ => inl MOther
    | inr v => inr v
    end.
End Query.
