(** Model of common.min_max, get_bin_edges and histogram (xboa/common/_common.py 252-280, 322-368) in double
    precision, step by step as CommonModel has them over the real numbers.  Only what get_bin_edges needs of
    min_max is here (no weights, margin 0.0, no xmin and xmax).

    Simplified: data, weights and edges are floats (no ints), lists are not numpy arrays; the number of bins
    is an int. *)
From Coq Require Import ZArith List Bool Arith.
From Flocq Require Import BinarySingleNaN.
From Verif Require Import Num FloatModel PyLibModel.
Import ListNotations.
Open Scope list_scope.

Notation fadd := (Bplus (prec := prec64) (emax := emax64) mode_NE).
Notation fsub := (Bminus (prec := prec64) (emax := emax64) mode_NE).
Notation fmul := (Bmult (prec := prec64) (emax := emax64) mode_NE).
Notation fdiv := (Bdiv (prec := prec64) (emax := emax64) mode_NE).
Notation flt := (Bltb (prec := prec64) (emax := emax64)).
Definition fzero : b64 := B754_zero false.
Definition fone : b64 := b64_of_Z 1.
(** The literal 1e-9: the double nearest to 1 / 10^9, as Bdiv gives it. *)
Definition tiny : b64 := fdiv fone (b64_of_Z 1000000000).

Inductive BErr := BIndexError | BValueError | BZeroDivision.

(** Python min and max of a list that is not empty. *)
Fixpoint f_min (l : list b64) (m : b64) : b64 :=
  match l with [] => m | x :: r => f_min r (if flt x m then x else m) end.
Fixpoint f_max (l : list b64) (m : b64) : b64 :=
  match l with [] => m | x :: r => f_max r (if flt m x then x else m) end.

(** 265-280 for weight_list = [] and margin = 0.0. *)
Definition data_range (xs : list b64) : b64 * b64 :=
  let (lo, hi) := match xs with [] => (fzero, fzero) | y :: r => (f_min r y, f_max r y) end in
  let delta := fmul (fsub hi lo) fzero in
  let lo1 := fsub lo delta in
  let hi1 := fadd hi delta in
  if flt (fsub hi1 lo1) tiny then (fsub lo1 fone, fadd hi1 fone) else (lo1, hi1).

(** 362-368: the edges from the range. *)
Definition edges (lo hi : b64) (n : Z) : BErr + list b64 :=
  if Z.eqb n 0 then inl BZeroDivision
  else
    let delta := fdiv (fsub hi lo) (b64_of_Z n) in
    inr (map (fun i => fadd lo (fmul delta (b64_of_Z (Z.of_nat i)))) (seq 0 (Z.to_nat (n + 1)))).

(** 352-368: get_bin_edges. *)
Definition get_bin_edges (xs : list b64) (n : Z) (xmin xmax : option b64) : BErr + list b64 :=
  let (lo, hi) := data_range xs in
  edges (match xmin with Some a => a | None => lo end) (match xmax with Some b => b | None => hi end) n.

(** contents[p,q] += w *)
Definition add_to (m : list (list b64)) (p q : nat) (w : b64) : list (list b64) :=
  match nth_error m p with
  | None => m
  | Some row => match nth_error row q with
                | None => m
                | Some x => set_nth m p (set_nth row q (fadd x w))
                end
  end.

(** 343-347: the loop over the values; the numbers p and q of the code are one less. *)
Fixpoint fill (xb yb : list b64) (xs ys ws : list b64) (m : list (list b64)) : BErr + list (list b64) :=
  match xs with
  | [] => inr m
  | x :: xr =>
      match ys with
      | [] => inl BIndexError
      | y :: yr =>
          let p := bisect_right flt xb x in
          let q := bisect_right flt yb y in
          if (1 <=? p) && (p <? length xb) && (1 <=? q) && (q <? length yb) then
            match ws with
            | [] => inl BIndexError
            | w :: wr => fill xb yb xr yr wr (add_to m (p - 1) (q - 1) w)
            end
          else fill xb yb xr yr (tl ws) m
      end
  end.

(** 322-350: histogram. *)
Definition histogram (xs xb : list b64) (y : option (list b64 * list b64)) (weights : option (list b64))
  : BErr + (list (list b64) * list b64 * list b64) :=
  let ws := match weights with Some w => w | None => map (fun _ => fone) xs end in
  let (ys, yb) := match y with Some p => p | None => (map (fun _ => fzero) xs, [b64_of_Z (-1); fone]) end in
  match xb, yb with
  | [], _ | _, [] => inl BValueError     (* numpy.zeros with a negative dimension *)
  | _, _ =>
      match fill xb yb xs ys ws (repeat (repeat fzero (length yb - 1)) (length xb - 1)) with
      | inl e => inl e
      | inr m => inr (m, xb, match y with Some _ => yb | None => [] end)
      end
  end.
