(** Model of the statistics of a bunch: weights, moments, means, covariance matrices and
    the moment tensor.
    Source: xboa/bunch/_bunch.py, xboa/core/cpplib/Bunchcore.cc,
    xboa/core/pylib/PyBunchcore.cc, xboa/core/utils/TypeConversions-inl.hh. *)
From Coq Require Import ZArith List Bool String.
From Verif Require Import Num WeightModel HitcoreModel PyLibModel BunchModel.
Import ListNotations.
Open Scope string_scope.
Open Scope list_scope.

(** ZeroDivisionError, KeyError, any other exception. *)
Inductive MErr := MZeroDivision | MKeyError | MOther.

(** _bunch.py 1204-1217 applied to Bunch.__axis_list (1907): the variables of the stored
    covariance matrix. *)
Definition cov_variables : list string :=
  ["x"; "px"; "y"; "py"; "z"; "pz"; "t"; "energy"; "ct"; "energy"].

(** list.index. *)
Fixpoint index_of (l : list string) (k : string) : option nat :=
  match l with
  | [] => None
  | x :: r => if String.eqb x k then Some 0%nat else option_map S (index_of r k)
  end.

(** ---- the moment tensor ---- *)

(** The loop of Bunchcore.cc 194-206 for one axis; [fuel] is the number of axes left.
    The C++ copies current_index at every level of the recursion. *)
Fixpoint index_by_power_recurse (fuel max_size axis : nat) (current_index : list nat)
  : list (list nat) :=
  match fuel with
  | O => []
  | S fuel' =>
      let current_sum := (nth 0 current_index 0 +
        list_sum (map (fun i => nth i current_index 0) (seq 1 (axis - 1))))%nat in
      flat_map (fun i =>
          let idx := set_nth current_index axis i in
          index_by_power_recurse fuel' max_size (S axis) idx ++
          (if Nat.ltb 0 i then [idx] else []))
        (seq 0 (S max_size - current_sum))
  end.

(** Bunchcore.cc 174-181: get_index_by_power, for at least one axis. *)
Definition index_by_power (max_size n_axes : nat) : list (list nat) :=
  repeat 0%nat n_axes ::
  index_by_power_recurse n_axes max_size 0 (repeat 0%nat n_axes).

(** PyBunchcore.cc 416-441: the Python entry point. *)
Definition py_index_by_power (max_power n_axes : Z) : option (list (list nat)) :=
  if ((max_power <? 0) || (n_axes <? 1))%Z%bool then None
  else Some (index_by_power (Z.to_nat max_power) (Z.to_nat n_axes)).


Section Moment.
  Variable N : NumOps.
  Notation World := (World N).
  Notation PyVal := (PyVal N).
  Notation Dict := (list (string * PyVal)).
  Variable extra : World -> list nat -> string -> nat -> option PyVal.

  (** _bunch.py 74-77, 759-781: the covariances and means stored by
      set_covariance_matrix.  The tests [self.__covs != None] are read as identity tests;
      recent numpy versions compare elementwise and raise instead. *)
  Record Fixed := mkFixed { f_covs : option (nat -> nat -> N); f_means : Dict }.
  Definition no_fixed : Fixed := mkFixed None [].

  (** The hit behind entry o of the C++ vector, NULLs skipped (Bunchcore.cc 68-70). *)
  Definition core_hit (w : World) (o : option nat) : option (Hit N) :=
    match o with Some l => w_hits w l | None => None end.

  (** Bunchcore.cc 210-220: bunch_weight. *)
  Definition core_bunch_weight (w : World) (core : list (option nat)) : N :=
    fold_left (fun s o => match core_hit w o with
                          | Some h => nadd s (read_dbl (core_ctx w) h DWeight)
                          | None => s
                          end) core n0.

  (** std::map::operator[]: a missing entry is 0 (Bunchcore.cc 61). *)
  Definition map_get (means : list (string * N)) (k : string) : N :=
    match assoc means k with Some m => m | None => n0 end.

  (** Bunchcore.cc 46-81: get_moment; false ([None]) if some axis is not a double. *)
  Definition core_moment (w : World) (core : list (option nat)) (axes : list string)
      (means : list (string * N)) : option N :=
    match all_some (map (assoc get_dbl_map) axes) with
    | None => None
    | Some fs =>
        let ms := map (map_get means) axes in
        let weight_sum := core_bunch_weight w core in
        Some (fold_left
          (fun s o => match core_hit w o with
            | Some h =>
                nadd s (fold_left
                  (fun m p => nmul m (nsub (read_dbl (core_ctx w) h (fst p)) (snd p)))
                  (combine fs ms)
                  (ndiv (read_dbl (core_ctx w) h DWeight) weight_sum))
            | None => s
            end) core n0)
    end.

  (** TypeConversions-inl.hh 52-62, 91-118: every value of the dict must be a Python
      float; an int is refused. *)
  Definition float_map (d : Dict) : option (list (string * N)) :=
    all_some (map (fun p => match snd p with PFloat x => Some (fst p, x) | _ => None end) d).

  (** A Python number; [None] for anything else (the arithmetic raises TypeError). *)
  Definition as_num (v : PyVal) : option N :=
    match v with PFloat x => Some x | PInt z => Some (nofZ z) | POther => None end.

  (** _bunch.py 702-704: change = prod (value - mean). *)
  Fixpoint py_change (w : World) (hits : list nat) (l : nat) (vars : list string)
      (means : list N) (change : N) : option N :=
    match vars, means with
    | v :: vars', m :: means' =>
        match get_hit_variable extra w hits v l with
        | Some x =>
            match as_num x with
            | Some y => py_change w hits l vars' means' (nmul change (nsub y m))
            | None => None
            end
        | None => None
        end
    | _, _ => Some change
    end.

  (** The weight of a hit as Python reads it. *)
  Definition py_weight (w : World) (l : nat) : N :=
    match hit_get w l "weight" with Some v => num_of v | None => n0 end.

  (** _bunch.py 701-706: the loop over the hits. *)
  Fixpoint py_moment_loop (w : World) (all hs : list nat) (vars : list string)
      (means : list N) (moment : N) : option N :=
    match hs with
    | [] => Some moment
    | l :: r =>
        match py_change w all l vars means n1 with
        | Some change => py_moment_loop w all r vars means
                           (nadd moment (nmul change (py_weight w l)))
        | None => None
        end
    end.

  (** _bunch.py 697-707: the fall back; KeyError if a mean is missing. *)
  Definition py_moment (w : World) (b : Bunch) (vars : list string) (d : Dict)
    : MErr + N :=
    match all_some (map (fun v => match assoc d v with Some x => Some x | None => None end)
                        vars) with
    | None => inl MKeyError
    | Some ms =>
        match all_some (map as_num ms) with
        | None => inl MOther
        | Some means =>
            match py_moment_loop w (b_hits b) (b_hits b) vars means (nofZ 0) with
            | Some m => inr (ndiv m (bunch_weight w b))
            | None => inl MOther
            end
        end
    end.

  (** 1e-9 in _bunch.py 684. *)
  Definition weight_tol : N := ndiv n1 (nofZ 1000000000).

  (** _bunch.py 685-692: the stored covariance, for two variables that are both listed. *)
  Definition fixed_cov (fx : Fixed) (vars : list string) : option N :=
    match f_covs fx, vars with
    | Some m, [u; v] =>
        match index_of cov_variables u, index_of cov_variables v with
        | Some i, Some j => Some (m i j)
        | _, _ => None
        end
    | _, _ => None
    end.

  (** _bunch.py 671-707: moment, with a mean dict that is not empty. *)
  Definition moment_about (fx : Fixed) (w : World) (b : Bunch) (vars : list string)
      (d : Dict) : MErr + N :=
    if nltb (nabs (bunch_weight w b)) weight_tol then inl MZeroDivision
    else match fixed_cov fx vars with
    | Some x => inr x
    | None =>
        match float_map d with
        | Some fd =>
            match core_moment w (b_core b) vars fd with
            | Some m => inr m
            | None => py_moment w b vars d
            end
        | None => py_moment w b vars d
        end
    end.

  (** _bunch.py 709-724: mean; [acc] is the dict under construction. *)
  Fixpoint mean_loop (fx : Fixed) (w : World) (b : Bunch) (vars : list string) (acc : Dict)
    : MErr + Dict :=
    match vars with
    | [] => inr acc
    | v :: r =>
        match assoc acc v with
        | Some _ => mean_loop fx w b r acc
        | None =>
            match assoc (f_means fx) v with
            | Some m => mean_loop fx w b r (acc ++ [(v, m)])
            | None =>
                match moment_about fx w b [v] [(v, PFloat n0)] with
                | inr m => mean_loop fx w b r (acc ++ [(v, PFloat m)])
                | inl e => inl e
                end
            end
        end
    end.

  Definition mean (fx : Fixed) (w : World) (b : Bunch) (vars : list string)
    : MErr + Dict := mean_loop fx w b vars [].

  (** _bunch.py 671-707: moment. *)
  Definition moment (fx : Fixed) (w : World) (b : Bunch) (vars : list string) (d : Dict)
    : MErr + N :=
    if nltb (nabs (bunch_weight w b)) weight_tol then inl MZeroDivision
    else match fixed_cov fx vars with
    | Some x => inr x
    | None =>
        match d with
        | _ :: _ => moment_about fx w b vars d
        | [] =>
            match mean fx w b vars with
            | inr d' => moment_about fx w b vars d'
            | inl e => inl e
            end
        end
    end.

  (** _bunch.py 740-744: complete the dict of origins with the means. *)
  Fixpoint complete_origin (fx : Fixed) (w : World) (b : Bunch) (vars : list string)
      (d : Dict) : MErr + Dict :=
    match vars with
    | [] => inr d
    | v :: r =>
        match assoc d v with
        | Some _ => complete_origin fx w b r d
        | None =>
            match mean fx w b [v] with
            | inr m =>
                match assoc m v with
                | Some x => complete_origin fx w b r (d ++ [(v, x)])
                | None => inl MKeyError
                end
            | inl e => inl e
            end
        end
    end.

  Fixpoint all_inr {A} (l : list (MErr + A)) : MErr + list A :=
    match l with
    | [] => inr []
    | inr x :: r => match all_inr r with inr y => inr (x :: y) | inl e => inl e end
    | inl e :: _ => inl e
    end.

  (** _bunch.py 726-757: covariance_matrix.  The call of the core passes a list where a
      dict is required (745), so it always raises and the loop 751-756 is used: entry
      (i,j) with i <= j is computed and mirrored. *)
  Definition covariance_matrix (fx : Fixed) (w : World) (b : Bunch) (vars : list string)
      (origin : Dict) : MErr + list (list N) :=
    match complete_origin fx w b vars origin with
    | inl e => inl e
    | inr d =>
        let n := List.length vars in
        let var i := nth i vars "" in
        all_inr (map (fun i => all_inr (map (fun j =>
          moment fx w b [var (Nat.min i j); var (Nat.max i j)] d) (seq 0 n))) (seq 0 n))
    end.

  (** Bunchcore.cc 150-156: powers of a value. *)
  Fixpoint npow (x : N) (k : nat) : N :=
    match k with O => n1 | S k' => nmul x (npow x k') end.

  (** 1e-15 in Bunchcore.cc 142. *)
  Definition tensor_tol : N := ndiv n1 (nofZ 1000000000000000).

  (** Bunchcore.cc 123-172: get_moment_tensor; [None] if the call fails. *)
  Definition moment_tensor (w : World) (core : list (option nat)) (axes : list string)
      (max_size : nat) : option (list N) :=
    match axes, max_size with
    | [], _ => None
    | _, O => None
    | _, _ =>
        match all_some (map (assoc get_dbl_map) axes) with
        | None => None
        | Some fs =>
            let weight_sum := core_bunch_weight w core in
            if nltb (nabs weight_sum) tensor_tol then None
            else Some (map (fun idx =>
              fold_left (fun s o => match core_hit w o with
                | Some h =>
                    nadd s (ndiv
                      (fold_left (fun m p => nmul m (npow (read_dbl (core_ctx w) h (fst p)) (snd p)))
                         (combine fs idx) (read_dbl (core_ctx w) h DWeight))
                      weight_sum)
                | None => s
                end) core n0)
              (index_by_power max_size (List.length axes)))
        end
    end.

  (** PyBunchcore.cc 364-405: the Python entry point refuses negative powers. *)
  Definition py_moment_tensor (w : World) (core : list (option nat)) (axes : list string)
      (max_power : Z) : option (list N) :=
    if (max_power <? 0)%Z then None else moment_tensor w core axes (Z.to_nat max_power).
End Moment.

Arguments mkFixed {N} _ _.
Arguments f_covs {N} _.
Arguments f_means {N} _.
Arguments no_fixed {N}.
Arguments core_hit {N} _ _.
Arguments core_bunch_weight {N} _ _.
Arguments map_get {N} _ _.
Arguments core_moment {N} _ _ _ _.
Arguments float_map {N} _.
Arguments as_num {N} _.
Arguments py_change {N} _ _ _ _ _ _ _.
Arguments py_weight {N} _ _.
Arguments py_moment_loop {N} _ _ _ _ _ _ _.
Arguments py_moment {N} _ _ _ _ _.
Arguments weight_tol {N}.
Arguments fixed_cov {N} _ _.
Arguments moment_about {N} _ _ _ _ _ _.
Arguments mean_loop {N} _ _ _ _ _ _.
Arguments mean {N} _ _ _ _ _.
Arguments moment {N} _ _ _ _ _ _.
Arguments complete_origin {N} _ _ _ _ _ _.
Arguments all_inr {A} _.
Arguments covariance_matrix {N} _ _ _ _ _ _.
Arguments npow {N} _ _.
Arguments tensor_tol {N}.
Arguments moment_tensor {N} _ _ _ _.
Arguments py_moment_tensor {N} _ _ _ _.
