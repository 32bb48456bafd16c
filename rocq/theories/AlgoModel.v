(** Model of the algorithms on lists of numbers: peak finders, smoothing, scan of starting
    points, noise of a closed orbit, phase advance.  Source: xboa/algorithms.
    Floats are real numbers. *)
From Coq Require Import Reals ZArith List Bool.
From Verif Require Import PyLibModel HitPyModel CommonModel TrackModel.
Import ListNotations.
Open Scope list_scope.
Open Scope R_scope.

Inductive AErr := AIndex | AValue | AType | AZeroDiv | ARuntime.

(** ---- peak_finder/_uphill_downhill_peak_finder.py ---------------------------------------- *)

(** 34-35: _get_derivative. *)
Definition derivative (data : list R) : list R :=
  map (fun i => nth (S i) data 0 - nth i data 0) (seq 0 (length (tl data))).

(** 85-94: find_peaks (the fit object made by the constructor plays no role). *)
Definition uphill_peaks (data : list R) : list nat :=
  let d := derivative data in
  map S (filter (fun i => rltb 0 (nth i d 0) && rltb (nth (S i) d 0) 0)
                (seq 0 (length (tl d)))).

(** ---- peak_finder/_window_peak_finder.py --------------------------------------------------- *)

(** range(0, n, step) for step > 0. *)
Fixpoint range_from (fuel i n step : nat) : list nat :=
  match fuel with
  | O => []
  | S f => if (i <? n)%nat then i :: range_from f (i + step) n step else []
  end.
Definition py_range (n step : nat) : list nat := range_from n 0 n step.

(** max(test) and test.index(max(test)); [None]: ValueError, the list is empty. *)
Fixpoint max_at (l : list R) (i : nat) (best : nat) (m : R) : nat * R :=
  match l with
  | [] => (best, m)
  | x :: r => if rltb m x then max_at r (S i) i x else max_at r (S i) best m
  end.
Definition first_max (l : list R) : option (nat * R) :=
  match l with [] => None | x :: r => Some (max_at r 1 0 x) end.

Definition sum_list (l : list R) : R := fold_left Rplus l 0.

(** 71-78: the threshold. *)
Definition over_threshold (threshold : R) (test : list R) (max_value : R) : bool :=
  if rltb threshold 1 then true
  else
    let n := INR (length test) in
    let mean := sum_list test / n in
    let sigma := sqrt (sum_list (map (fun x => x * x) test) - mean * mean) / n in
    rltb (sigma * threshold) (max_value - mean).

(** 58-78: the loop over the starts of the windows. *)
Fixpoint window_loop (data : list R) (size : nat) (threshold : R) (starts : list nat)
    (peaks : list nat) : AErr + list nat :=
  match starts with
  | [] => inr peaks
  | i :: r =>
      let test := firstn size (skipn i data) in
      match first_max test with
      | None => inl AValue
      | Some (max_index, max_value) =>
          if (negb (i =? 0) && (max_index =? 0)) ||
             (negb (i =? length data - size) && (max_index =? size - 1)) then
            window_loop data size threshold r peaks
          else if existsb (Nat.eqb (max_index + i)) peaks then
            window_loop data size threshold r peaks
          else if over_threshold threshold test max_value then
            window_loop data size threshold r (peaks ++ [(max_index + i)%nat])
          else window_loop data size threshold r peaks
      end
  end%nat%bool.

(** 36-79: find_peaks, for a window_size and a window_step that are not negative. *)
Definition window_peaks (window_size : nat) (threshold : R) (window_step : nat)
    (data : list R) : AErr + list nat :=
  let size := if (length data <? window_size)%nat then length data else window_size in
  if (window_step =? 0)%nat then inl AValue
  else window_loop data size threshold (py_range (length data - size + 1) window_step) [].

(** ---- smoothing/_gaussian_smoothing.py ------------------------------------------------------ *)

(** 55-56: the weights; for range_ that is not negative. *)
Definition gauss_weight (sigma : R) (k : Z) : R := exp (- (IZR k * IZR k) / (2 * (sigma * sigma))).
Definition gauss_weights (sigma : R) (range_ : nat) : list R :=
  map (fun i => gauss_weight sigma (Z.of_nat i - Z.of_nat range_)) (seq 0 (2 * range_ + 1)).

Record Gauss := mkGauss { g_range : nat; g_weights : list R; g_norm : option R }.

(** 43-59. *)
Definition gauss_init (sigma : R) (range_ : nat) (adjust : bool) : AErr + Gauss :=
  if Req_EM_T sigma 0 then inl AZeroDiv
  else let w := gauss_weights sigma range_ in
       inr (mkGauss range_ w (if adjust then None else Some (sum_list w))).

(** 66-83: _smooth_one. *)
Definition smooth_one (g : Gauss) (signal : list R) (i : nat) : R :=
  let s0 := (i - g_range g)%nat in
  let s1 := Nat.min (length signal) (i + g_range g + 1) in
  let sigs := map (fun k => nth k signal 0) (seq s0 (s1 - s0)) in
  let w0 := (s0 + g_range g - i)%nat in
  let weights := map (fun k => nth k (g_weights g) 0) (seq w0 (s1 - s0)) in
  let norm := match g_norm g with None => sum_list weights | Some n => n end in
  sum_list (map (fun j => nth j weights 0 * nth j sigs 0 / norm) (seq 0 (s1 - s0))).

(** 61-64. *)
Definition gauss_smooth (g : Gauss) (signal : list R) : list R :=
  map (smooth_one g signal) (seq 0 (length signal)).

(** ---- smoothing/_cut_smoothing.py ------------------------------------------------------------ *)

(** The columns are Python objects: a table is a list of places in a store. *)
Definition Store := list (list R).
Definition at_ (s : Store) (l : nat) : list R := nth l s [].

(** numpy.mean; of nothing it is nan, for which no comparison holds ([None]). *)
Definition np_mean (l : list R) : option R :=
  match l with [] => None | _ => Some (sum_list l / INR (length l)) end.

(** abs(x - mean) > cut_range *)
Definition far (cut_range : R) (mean : option R) (x : R) : bool :=
  match mean with None => false | Some m => rltb cut_range (Rabs (x - m)) end.

(** signal[a:b] where a may be negative. *)
Definition slice (l : list R) (a : Z) (b : nat) : list R :=
  let start := if (a <? 0)%Z then Z.to_nat (a + Z.of_nat (length l)) else Z.to_nat a in
  firstn (b - start) (skipn start l).

(** 73-82: will_cut_data, with the division of ints rounded down. *)
Definition cut_flags (cut_range : R) (step : nat) (signal : list R) : list bool :=
  let n := length signal in
  let q := (n / step)%nat in
  let head := flat_map (fun i =>
                let w := slice signal (Z.of_nat (i * step)) ((i + 1) * step) in
                map (far cut_range (np_mean w)) w) (seq 0 q) in
  let last := np_mean (slice signal (Z.of_nat n - Z.of_nat step) n) in
  head ++ map (far cut_range last) (skipn (q * step) signal).

(** 86-90: the deletions in one column; [None]: IndexError. *)
Fixpoint del_loop (flags : list bool) (i n_cuts : nat) (column : list R) : option (list R) :=
  match flags with
  | [] => Some column
  | f :: r =>
      if f then
        if (i - n_cuts <? length column)%nat
        then del_loop r (S i) (S n_cuts) (remove_nth column (i - n_cuts))
        else None
      else del_loop r (S i) n_cuts column
  end.

Fixpoint del_columns (flags : list bool) (cols : list nat) (s : Store) : AErr + Store :=
  match cols with
  | [] => inr s
  | c :: r =>
      match del_loop flags 0 0 (at_ s c) with
      | None => inl AIndex
      | Some l => del_columns flags r (set_nth s c l)
      end
  end.

(** 54-91: smooth_table, for a step that is not negative.  The deepcopy keeps columns that
    are one object one object; result: the columns of the copy. *)
Definition smooth_table (dl : Dialect) (cut_range : R) (step : nat) (s : Store)
    (table : list nat) (target : nat) : AErr + list (list R) :=
  match nth_error table target with
  | None => inl AIndex
  | Some c =>
      let signal := at_ s c in
      if negb (forallb (fun l => length (at_ s l) =? length signal)%nat table) then inl AIndex
      else if (step =? 0)%nat then inl AZeroDiv
      else if negb (floor_div dl) then inl AType
      else match del_columns (cut_flags cut_range step signal) table s with
           | inl e => inl e
           | inr s' => inr (map (at_ s') table)
           end
  end.

(** 45-52. *)
Definition cut_smooth (dl : Dialect) (cut_range : R) (step : nat) (signal : list R)
  : AErr + list R :=
  match smooth_table dl cut_range step [signal] [0%nat] 0 with
  | inl e => inl e
  | inr t => match t with c :: _ => inr c | [] => inl AIndex end
  end.

(** ---- closed_orbit/_ellipse_closed_orbit_finder.py -------------------------------------------- *)

(** One variable of the scan: start, end and step size. *)
Record Axis := mkAxis { a_start : R; a_end : R; a_size : R }.

(** 86-91: the step of the counter.  The lists are reversed: the last key first. *)
Fixpoint advance (axes : list Axis) (step : list R) : list R :=
  match axes, step with
  | a :: ar, x :: xr =>
      let x' := x + a_size a in
      match ar with
      | [] => x' :: xr
      | _ => if rltb (a_end a) x' then a_start a :: advance ar xr else x' :: xr
      end
  | _, _ => step
  end.

(** 75-77: some coordinate has reached its end. *)
Definition out_of_steps (axes : list Axis) (step : list R) : bool :=
  existsb (fun ax => negb (rltb (snd ax) (a_end (fst ax)))) (combine axes step).

(** 74-91: the points yielded in the first [n] rounds; the flag is true if the generator has
    ended by then (by StopIteration raised inside it, that is, since Python 3.7, by
    RuntimeError). *)
Fixpoint scan_loop (n : nat) (axes : list Axis) (step : list R) : list (list R) * bool :=
  match n with
  | O => ([], false)
  | S k =>
      if out_of_steps axes step then ([], true)
      else let (l, e) := scan_loop k axes (advance axes step) in (step :: l, e)
  end.

(** 57-91: scan_generator.  [axes] in the order of the sorted keys; a point is the list of
    values in that order. *)
Definition scan (n : nat) (axes : list Axis) : list (list R) * bool :=
  let (l, e) := scan_loop n (rev axes) (map a_start (rev axes)) in (map (@rev R) l, e).

(** 240-253: get_mean_noise once the noise is there. *)
Definition mean_noise (noise : list R) : AErr + R :=
  match noise with [] => inl AValue | _ => inr (sum_list noise / INR (length noise)) end.

(** 256-272: get_sigma_noise. *)
Definition sigma_noise (noise : list R) : AErr + R :=
  match mean_noise noise with
  | inl e => inl e
  | inr m =>
      let var := sum_list (map (fun x => x * x) noise) / INR (length noise) - m * m in
      if rltb 0 var then inr (sqrt var) else inr 0
  end.

(** ---- tune/_dphi_tune.py 67-87 ------------------------------------------------------------------ *)

(** 73-76: point on the circle; [ci] is the inverse of the Cholesky factor of the ellipse. *)
Definition to_circle (ci : R * R * R * R) (centre p : R * R) : R * R :=
  let '(a, b, c, d) := ci in
  let x := fst p - fst centre in
  let y := snd p - snd centre in
  (a * x + b * y, c * x + d * y).

Definition phase (p : R * R) : R := - atan2 (snd p) (fst p).

(** 78-87: the loop; appends to the list kept in the object. *)
Fixpoint dphi_loop (old : R) (points : list (R * R)) (dphi : list R) : list R :=
  match points with
  | [] => dphi
  | p :: r =>
      let phi := phase p in
      let delta := phi - old in
      let delta' := if rltb delta 0 then delta + PI * 2 else delta in
      dphi_loop phi r (dphi ++ [delta' / PI / 2])
  end.

(** [dphi]: the list before the call. *)
Definition get_dphi_list (ci : R * R * R * R) (centre : R * R) (points : list (R * R))
    (dphi : list R) : AErr + list R :=
  match map (to_circle ci centre) points with
  | [] => inl AIndex
  | p :: r => inr (dphi_loop (phase p) r dphi)
  end.
