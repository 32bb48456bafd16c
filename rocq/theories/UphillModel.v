(** Model of UphillDownhillPeakFinder.find_peak_errors_derivative
    (xboa/algorithms/peak_finder/_uphill_downhill_peak_finder.py 31-83).

    Simplified: numbers are reals; TGraph.Fit is a parameter that takes the function as it was set up and the points of
    the graph and returns the function after the fit and the error on its first parameter; drawing is left out; the
    data have an element (enumerate(data[1:]) of an empty list is empty, so that an empty list has no derivative either). *)
From Coq Require Import Reals ZArith List Bool.
From Verif Require Import Num AlgoModel RefineModel.
Import ListNotations.
Open Scope R_scope.

(** 31-32: the TF1: parameters, which of them are fixed, range. *)
Record TF1 := mkTF1 { tf_par : list R; tf_fixed : list bool; tf_range : R * R }.
Definition tf1_new : TF1 := mkTF1 [0; 0; 0; 0; 0] [false; false; false; false; false] (0, 1).

Fixpoint set_nth {A} (n : nat) (x : A) (l : list A) : list A :=
  match l, n with [], _ => [] | _ :: r, O => x :: r | y :: r, S m => y :: set_nth m x r end.

(** TF1::SetParameter, FixParameter, SetRange. *)
Definition set_parameter (i : nat) (x : R) (f : TF1) : TF1 := mkTF1 (set_nth i x (tf_par f)) (tf_fixed f) (tf_range f).
Definition fix_parameter (i : nat) (x : R) (f : TF1) : TF1 := mkTF1 (set_nth i x (tf_par f)) (set_nth i true (tf_fixed f)) (tf_range f).
Definition set_range (a b : R) (f : TF1) : TF1 := mkTF1 (tf_par f) (tf_fixed f) (a, b).

Inductive UErr := UValueError.

Definition min_of (l : list R) : UErr + R := match l with [] => inl UValueError | x :: r => inr (fold_left Rmin r x) end.
Definition max_of (l : list R) : UErr + R := match l with [] => inl UValueError | x :: r => inr (fold_left Rmax r x) end.

Section Fit.
  Variable root_fit : TF1 -> list (R * R) -> TF1 * R.

  (** 47-61, 81-82: one peak. *)
  Definition one_peak (f : TF1) (d : list R) (delta peak : Z) : UErr + (TF1 * (R * R)) :=
    let x_min := Z.max (peak - delta) 0 in
    let x_max := Z.min (peak + delta + 1) (Z.of_nat (length d)) in
    let x_list := map (fun k => x_min + Z.of_nat k)%Z (seq 0 (Z.to_nat (x_max - x_min))) in
    let y_list := py_slice d x_min x_max in
    let f1 := fold_left (fun g i => set_parameter i 0 g) (seq 0 5) f in
    let f2 := fold_left (fun g i => fix_parameter i 0 g) (seq 2 3) f1 in
    match min_of y_list, max_of y_list with
    | inr lo, inr hi =>
        let f3 := set_range lo hi f2 in
        let pts := map (fun i => (nth i y_list 0, IZR (nth i x_list 0%Z))) (seq 0 (length x_list)) in
        let '(f4, err) := root_fit f3 pts in
        inr (f4, (nth 0 (tf_par f4) 0, err))
    | inl e, _ => inl e
    | _, inl e => inl e
    end.

  (** 46, 81-83: the loop. *)
  Fixpoint all_peaks (f : TF1) (d : list R) (delta : Z) (peaks : list Z) : UErr + list (R * R) :=
    match peaks with
    | [] => inr []
    | p :: r =>
        match one_peak f d delta p with
        | inl e => inl e
        | inr (f', out) => match all_peaks f' d delta r with inl e => inl e | inr l => inr (out :: l) end
        end
    end.

  (** 37-83. *)
  Definition find_peak_errors_derivative (f : TF1) (data : list R) (peaks : list Z) (delta : Z) : UErr + list (R * R) :=
    all_peaks f (derivative data) delta peaks.
End Fit.
