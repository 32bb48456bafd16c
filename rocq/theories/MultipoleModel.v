(** Model of xboa/bunch/weighting/_multipole_weighting.py.

    Floats are real numbers; a result that is not finite is an error here.
    numpy.linalg.inv is an argument.  Indices are lists, as the documentation asks for. *)
From Coq Require Import Reals ZArith List Bool String.
From Verif Require Import Num WeightModel HitcoreModel PyLibModel BunchModel HitPyModel HitPySpec MomentModel
  BunchNumModel CommonModel EllipseModel TransformModel VoronoiModel.
Import ListNotations.
Open Scope R_scope.

Inductive PErr := PValueError | PIndexError | PLinAlg | PZeroDivision | POtherErr.

(** 28-44: what the constructor keeps.  v_f_list and v_f_index_by_power are overwritten by
    every call of _setup and are not read otherwise. *)
Record Multipole := mkMp {
  mp_max : Z;                        (* maximum_moment *)
  mp_vars : list string;             (* weight_variables *)
  mp_index : list (list Z);          (* v_g_index_by_power *)
  mp_target : list R                 (* v_g_list *)
}.

(** Comparison of lists of ints, and of pairs (list, float). *)
Definition index_ltb : list Z -> list Z -> bool := lex_ltb Z.eqb Z.ltb.
Fixpoint index_eqb (a b : list Z) : bool :=
  match a, b with
  | [], [] => true
  | x :: r, y :: s => (Z.eqb x y && index_eqb r s)%bool
  | _, _ => false
  end.
Definition item_ltb (a b : list Z * R) : bool :=
  if index_eqb (fst a) (fst b) then (if Rlt_dec (snd a) (snd b) then true else false)
  else index_ltb (fst a) (fst b).

(** 105-107: an item equal to the one before it. *)
Fixpoint adjacent_equal (l : list (list Z)) : bool :=
  match l with
  | a :: ((b :: _) as r) => (index_eqb b a || adjacent_equal r)%bool
  | _ => false
  end.

(** 74-111: set_target_moments.  An index that is not an int is [None].  Unpacking fails if
    there is no moment (111). *)
Definition set_target_moments (maximum : Z) (vars : list string)
    (moment_index_list : list (list (option Z))) (moment_list : list R) : PErr + Multipole :=
  if negb (Nat.eqb (List.length moment_index_list) (List.length moment_list)) then inl PValueError
  else
    match all_some (map (fun item =>
            if Nat.eqb (List.length item) (List.length vars) then all_some item else None)
            moment_index_list) with
    | None => inl PValueError
    | Some items =>
        if adjacent_equal items then inl PValueError
        else
          match sort item_ltb (combine items moment_list) with
          | [] => inl PValueError
          | s => inr (mkMp maximum vars (map fst s) (map snd s))
          end
    end.

(** [0]*n with 1 added at the positions of [at]. *)
Definition unit_index (n : nat) (at_ : list nat) : list (option Z) :=
  map (fun k => Some (Z.of_nat (count_occ Nat.eq_dec at_ k))) (seq 0 n).

(** 162-180: _moments_from_ellipse: the pairs handed to set_target_moments; [None]: a mean or
    an element of the ellipse is missing (IndexError). *)
Definition moments_from_ellipse (n : nat) (target_mean : list R) (target_ellipse : Matrix)
  : option (list (list (option Z) * R)) :=
  all_some (map (fun i => option_map (fun x => (unit_index n [i], x)) (nth_error target_mean i)) (seq 0 n) ++
    flat_map (fun i => map (fun j =>
        match nth_error target_ellipse i with
        | Some row => option_map (fun x => (unit_index n [i; j], x)) (nth_error row j)
        | None => None
        end) (seq i (n - i))) (seq 0 n)).

(** 31-44: the constructor. *)
Definition multipole_weighting (maximum_pole : Z) (weight_variables : list string)
    (target_ellipse : Matrix) (target_mean : list R) : PErr + Multipole :=
  match moments_from_ellipse (List.length weight_variables) target_mean target_ellipse with
  | None => inl PIndexError
  | Some items => set_target_moments maximum_pole weight_variables (map fst items) (map snd items)
  end.

(** 133-147: _v_f and _v_g: the value at the position found by bisection. *)
Definition find_moment (index : list (list Z)) (values : list R) (key : list Z) : PErr + R :=
  match nth_error values (bisect_left index_ltb index key) with
  | Some x => inr x
  | None => inl PIndexError
  end.

(** 149-160: _setup: the moments of the bunch, sorted by their powers. *)
Definition setup (mp : Multipole) (w : RWorld) (b : Bunch) : PErr + (list (list Z) * list R) :=
  match py_index_by_power (2 * mp_max mp) (Z.of_nat (List.length (mp_vars mp))),
        py_moment_tensor w (b_core b) (mp_vars mp) (2 * mp_max mp) with
  | Some powers, Some moments =>
      match sort item_ltb (combine (map (map Z.of_nat) (tl powers)) (tl moments)) with
      | [] => inl PValueError
      | s => inr (map fst s, map snd s)
      end
  | _, _ => inl POtherErr
  end.

Fixpoint all_okP {A} (l : list (PErr + A)) : PErr + list A :=
  match l with
  | [] => inr []
  | inr x :: r => match all_okP r with inr y => inr (x :: y) | inl e => inl e end
  | inl e :: _ => inl e
  end.

(** 124-125: the sum of two indices. *)
Definition index_add (a b : list Z) : list Z := map (fun p => (fst p + snd p)%Z) (combine a b).

(** 127-128: an element of the matrix. *)
Definition m_entry (mp : Multipole) (v_f : list Z -> PErr + R) (v_g : list Z -> PErr + R)
    (list_i list_j : list Z) : PErr + R :=
  match v_f (index_add list_i list_j), v_f list_i, v_g list_j with
  | inr fij, inr fi, inr gj => inr (fij - fi * gj)
  | _, _, _ => inl PIndexError
  end.

(** 113-131: _calculate_coefficients. *)
Definition coefficients (inv : Matrix -> option Matrix) (mp : Multipole) (w : RWorld) (b : Bunch)
  : PErr + list R :=
  match setup mp w b with
  | inl e => inl e
  | inr (f_index, f_list) =>
      let v_f := find_moment f_index f_list in
      let v_g := find_moment (mp_index mp) (mp_target mp) in
      match all_okP (map (fun li => all_okP (map (m_entry mp v_f v_g li) (mp_index mp))) (mp_index mp)) with
      | inl e => inl e
      | inr m =>
          match inv m with
          | None => inl PLinAlg
          | Some m_inverse =>
              match all_okP (map (fun li => match v_g li, v_f li with
                                            | inr g, inr f => inr (g - f)
                                            | _, _ => inl PIndexError
                                            end) (mp_index mp)) with
              | inl e => inl e
              | inr u => inr (map (fun row => dot row u) m_inverse)
              end
          end
      end
  end.

(** x**power for a float and an int; [None]: ZeroDivisionError. *)
Definition py_pow (x : R) (power : Z) : option R :=
  if (0 <=? power)%Z then Some (x ^ Z.to_nat power)
  else if Req_EM_T x 0 then None else Some (/ (x ^ Z.to_nat (- power))).

(** 63-66: coeff times the powers of the coordinates of a hit. *)
Fixpoint term (this_w : R) (row : list R) (index : list Z) : option R :=
  match index, row with
  | power :: index', x :: row' =>
      match py_pow x power with
      | Some y => term (this_w * y) row' index'
      | None => None
      end
  | _, _ => Some this_w
  end.

(** 61-67: w_i. *)
Fixpoint hit_factor (w_i : R) (row : list R) (terms : list (R * list Z)) : option R :=
  match terms with
  | [] => Some w_i
  | (coeff, index) :: r =>
      match term coeff row index with
      | Some t => hit_factor (w_i + t) row r
      | None => None
      end
  end.

(** Reading a weight as a number. *)
Definition get_number (w : RWorld) (l : nat) (name : string) : option R :=
  match hit_get w l name with Some v => as_real v | None => None end.

(** 60-69: the first loop; the sum of the factors is returned too. *)
Fixpoint factor_loop (w : RWorld) (name : string) (n : nat) (terms : list (R * list Z))
    (todo : list (nat * list R)) (sum_weights : R) : RWorld * (PErr + R) :=
  match todo with
  | [] => (w, inr sum_weights)
  | (l, row) :: r =>
      match hit_factor 1 row terms, get_number w l name with
      | Some w_i, Some x =>
          let (w', ok) := hit_set w l name (PFloat (x * w_i : RNum)) in
          if ok then factor_loop w' name n terms r (sum_weights + w_i / INR n) else (w', inl POtherErr)
      | None, _ => (w, inl PZeroDivision)
      | _, None => (w, inl POtherErr)
      end
  end.

(** 71-72: the second loop. *)
Fixpoint normalise_loop (w : RWorld) (name : string) (hs : list nat) (sum_weights : R)
  : RWorld * option PErr :=
  match hs with
  | [] => (w, None)
  | l :: r =>
      match get_number w l name with
      | Some x =>
          if Req_EM_T sum_weights 0 then (w, Some POtherErr)     (* the weight is inf or nan *)
          else
            let (w', ok) := hit_set w l name (PFloat (x / sum_weights : RNum)) in
            if ok then normalise_loop w' name r sum_weights else (w', Some POtherErr)
      | None => (w, Some POtherErr)
      end
  end.

(** 46-73: apply_weights. *)
Definition apply_multipole (extra : RWorld -> list nat -> string -> nat -> option RVal)
    (inv : Matrix -> option Matrix) (mp : Multipole) (w : RWorld) (b : Bunch) (global_cut : bool)
  : RWorld * option PErr :=
  match coefficients inv mp w b with
  | inl e => (w, Some e)
  | inr a =>
      match columns_of extra w (b_hits b) (mp_vars mp) with
      | None => (w, Some POtherErr)
      | Some columns =>
          let n := List.length (b_hits b) in
          let name := weight_name global_cut in
          match factor_loop w name n (combine a (mp_index mp))
                  (combine (b_hits b) (rows_of n columns)) 0 with
          | (w1, inl e) => (w1, Some e)
          | (w1, inr s) => normalise_loop w1 name (b_hits b) s
          end
      end
  end.
