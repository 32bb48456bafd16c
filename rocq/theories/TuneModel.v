(** Model of xboa/algorithms/tune/_fft_tune.py 31-130, 228-347: the tune from a Fourier transform.

    Floats are real numbers.  numpy.fft.rfft is the argument [rfft]; the peak finder is the
    argument [find].  Plots (132-227) are left out, as is the limit Python puts on the depth of a
    recursion: [fuel] bounds the depth, and [TRunning] is its exhaustion. *)
From Coq Require Import Reals ZArith List Bool.
From Verif Require Import PyLibModel HitPyModel HitPySpec CommonModel AlgoModel.
Import ListNotations.
Open Scope list_scope.
Open Scope R_scope.

Inductive TErr := TValue | TIndex | TFinder (e : AErr) | TRunning.

(** The attributes of FFTTuneFinder set by the calls (58-66). *)
Record Tune := mkTune {
  t_u : option (list R);
  t_up : option (list R);
  t_tune : option R;
  t_peak_x : list R;
  t_peak_y : list R;
  t_k_x : list R;
  t_k_y : list R
}.

(** list.index of a list of floats; [None] is ValueError. *)
Fixpoint find_index (x : R) (l : list R) : option nat :=
  match l with
  | [] => None
  | y :: r => if Req_EM_T y x then Some 0%nat else option_map S (find_index x r)
  end.

(** l[i-1]: for i = 0 the last element. *)
Definition before (l : list R) (i : nat) : R :=
  match i with O => last l 0 | S j => nth j l 0 end.

(** list.insert. *)
Definition insert_at (i : nat) (x : R) (l : list R) : list R := firstn i l ++ x :: skipn i l.

(** max of a list. *)
Definition max_list (l : list R) : option R :=
  match l with
  | [] => None
  | x :: r => Some (fold_left (fun m y => if rltb m y then y else m) r x)
  end.

(** 41-66: the constructor; up_data and u_data as given. *)
Definition new_tune (u up : option (list R)) : Tune := mkTune u up None [] [] [] [].

(** 323-347: _sft. *)
Definition sft (hanning : bool) (u : list R) (k_x : R) : R :=
  let n := INR (length u) in
  let a := fun m => (if hanning then 2 * (sin (PI * INR m / n)) ^ 2 else 1) * nth m u 0 in
  let f := fun m => 2 * PI * INR m * k_x * (n + 1) / n in
  let y_point := sum_n (length u) (fun m => a m * cos (f m)) in
  let z_point := sum_n (length u) (fun m => a m * sin (f m)) in
  sqrt (y_point ^ 2 + z_point ^ 2).

Section Tune.
  Variable rfft : list R -> list (R * R).
  Variable find : list R -> AErr + list nat.
  Variable hanning : bool.

  (** 261-272: _find_peaks.  The lists of peaks are kept if there are none. *)
  Definition find_peaks (st : Tune) : Tune * option TErr :=
    match find (t_k_y st) with
    | inl e => (st, Some (TFinder e))
    | inr l =>
        match sort Nat.ltb l with
        | [] => (st, None)
        | p :: r =>
            let peaks := match p with O => r | _ => p :: r end in
            if forallb (fun i => Nat.ltb i (length (t_k_y st))) peaks then
              (mkTune (t_u st) (t_up st) (t_tune st)
                 (map (fun i => nth i (t_k_x st) 0) peaks) (map (fun i => nth i (t_k_y st) 0) peaks)
                 (t_k_x st) (t_k_y st), None)
            else (st, Some TIndex)
        end
    end.

  (** 250-259: _fft_find_peaks. *)
  Definition fft_find_peaks (u : list R) (st : Tune) : Tune * option TErr :=
    let k_list := rfft u in
    find_peaks (mkTune (t_u st) (t_up st) (t_tune st) (t_peak_x st) (t_peak_y st)
      (map (fun i => INR i / 2 / INR (length k_list)) (seq 0 (length k_list)))
      (map (fun z => sqrt (fst z ^ 2 + snd z ^ 2)) k_list)).

  (** 241-248: _sft_find_peaks. *)
  Definition sft_find_peaks (u : list R) (interval : R) (st : Tune) : Tune * option TErr :=
    let k_x := map (fun i => INR i * interval) (seq 0 (Z.to_nat (int_of (1 / interval / 2)))) in
    find_peaks (mkTune (t_u st) (t_up st) (t_tune st) (t_peak_x st) (t_peak_y st)
      k_x (map (sft hanning u) k_x)).

  (** 228-239: _get_max_peak. *)
  Definition get_max_peak (st : Tune) : Tune * option TErr :=
    if forallb (fun k => match find_index k (t_k_x st) with Some _ => true | None => false end) (t_peak_x st) then
      let values := map (fun k => match find_index k (t_k_x st) with
                                  | Some i => nth i (t_k_y st) 0 | None => 0 end) (t_peak_x st) in
      match max_list values with
      | None => (st, Some TValue)
      | Some peak_max =>
          match find_index peak_max (t_k_y st) with
          | None => (st, Some TValue)
          | Some i => (mkTune (t_u st) (t_up st) (Some (nth i (t_k_x st) 0)) (t_peak_x st) (t_peak_y st)
                         (t_k_x st) (t_k_y st), None)
          end
      end
    else (st, Some TValue).

  (** 274-321: _recursive_refine_peak for the transform f: the new lists and the peak.  In 299 the
      transform is evaluated before the test of 300; it has no effects. *)
  Fixpoint refine (f : R -> R) (tol : R) (fuel : nat) (k_x k_y : list R) (x : R)
    : (list R * list R) * (TErr + R) :=
    match fuel with
    | O => ((k_x, k_y), inl TRunning)
    | S fuel' =>
        match find_index x k_x with
        | None => ((k_x, k_y), inl TValue)
        | Some i0 =>
            if Nat.eqb (length k_y) 1 then ((k_x, k_y), inl TIndex)
            else
              let peak_index := if Nat.eqb (i0 + 1) (length k_y) then (i0 - 1)%nat else i0 in
              let y_left := before k_y peak_index in
              let y_mid := nth peak_index k_y 0 in
              let y_right := nth (peak_index + 1) k_y 0 in
              let right := rltb y_left y_right in
              let '(x0, x1, y0, y1, index_right) :=
                if right then (nth peak_index k_x 0, nth (peak_index + 1) k_x 0, y_mid, y_right, (peak_index + 1)%nat)
                else (before k_x peak_index, nth peak_index k_x 0, y_left, y_mid, peak_index) in
              let new_x := (x0 + x1) / 2 in
              let new_y := f new_x in
              if rltb (Rabs (x1 - x0)) tol then ((k_x, k_y), inr (nth peak_index k_x 0))
              else
                let k_x := insert_at index_right new_x k_x in
                let k_y := insert_at index_right new_y k_y in
                if rltb y0 new_y && rltb y1 new_y then
                  refine f tol fuel' k_x k_y (nth index_right k_x 0)
                else if rltb new_y y0 && rltb new_y y1 then
                  match find_index y0 k_y with
                  | None => ((k_x, k_y), inl TValue)
                  | Some j =>
                      match refine f tol fuel' k_x k_y (nth j k_x 0) with
                      | (lists, inl e) => (lists, inl e)
                      | ((k_x, k_y), inr _) =>
                          match find_index y1 k_y with
                          | None => ((k_x, k_y), inl TValue)
                          | Some j => refine f tol fuel' k_x k_y (nth j k_x 0)
                          end
                      end
                  end
                else if rltb y1 y0 then refine f tol fuel' k_x k_y (nth peak_index k_x 0)
                else refine f tol fuel' k_x k_y (nth (peak_index + 1) k_x 0)
        end
    end.

  (** 98-105: the loop over the peaks, from peak i on.  ValueError is caught (104). *)
  Fixpoint refine_peaks (u : list R) (tol : R) (fuel : nat) (n i : nat) (st : Tune) : Tune * option TErr :=
    match n with
    | O => (st, None)
    | S n' =>
        match refine (sft hanning u) tol fuel (t_k_x st) (t_k_y st) (nth i (t_peak_x st) 0) with
        | ((k_x, k_y), inr x) =>
            let peak_x := set_nth (t_peak_x st) i x in
            match find_index x k_x with
            | Some j =>
                refine_peaks u tol fuel n' (S i)
                  (mkTune (t_u st) (t_up st) (t_tune st) peak_x (set_nth (t_peak_y st) i (nth j k_y 0)) k_x k_y)
            | None => refine_peaks u tol fuel n' (S i)
                  (mkTune (t_u st) (t_up st) (t_tune st) peak_x (t_peak_y st) k_x k_y)
            end
        | ((k_x, k_y), inl TValue) =>
            refine_peaks u tol fuel n' (S i)
              (mkTune (t_u st) (t_up st) (t_tune st) (t_peak_x st) (t_peak_y st) k_x k_y)
        | ((k_x, k_y), inl e) =>
            (mkTune (t_u st) (t_up st) (t_tune st) (t_peak_x st) (t_peak_y st) k_x k_y, Some e)
        end
    end.

  (** 84-87: the last element is taken off lists of even length; [None] is IndexError. *)
  Definition make_odd (st : Tune) (u : list R) : option (list R * Tune) :=
    if Nat.even (length u) then
      match u, t_up st with
      | [], _ => None
      | _, Some [] => None
      | _, up =>
          let u := removelast u in
          Some (u, mkTune (Some u) (option_map (@removelast R) up) (t_tune st) (t_peak_x st) (t_peak_y st) (t_k_x st) (t_k_y st))
      end
    else Some (u, st).

  Definition and_then (r : Tune * option TErr) (k : Tune -> Tune * option TErr) : Tune * option TErr :=
    match r with (st, None) => k st | _ => r end.

  (** 68-107: get_tune. *)
  Definition get_tune (fuel : nat) (tune_tolerance : option R) (st : Tune) : Tune * (TErr + R) :=
    match t_u st with
    | None => (st, inl TValue)
    | Some u =>
        match make_odd st u with
        | None => (st, inl TIndex)
        | Some (u, st) =>
            let tol := match tune_tolerance with Some t => t | None => 1 / INR (length u) / 100 end in
            let r :=
              and_then (fft_find_peaks u st) (fun st =>
              and_then (get_max_peak st) (fun st =>
              and_then (if Nat.eqb (length (t_peak_x st)) 0 then sft_find_peaks u tol st else (st, None)) (fun st =>
              and_then (get_max_peak st) (fun st =>
              if rltb tol (1 / INR (length (t_k_x st))) then
                and_then (refine_peaks u tol fuel (length (t_peak_x st)) 0 st) get_max_peak
              else (st, None))))) in
            match r with
            | (st, Some e) => (st, inl e)
            | (st, None) => match t_tune st with Some x => (st, inr x) | None => (st, inl TValue) end
            end
        end
    end.

  (** 109-130: run_tracking on the hits tracked, given by two of their variables. *)
  Definition run_tracking (hits : list (R * R)) (use_hits : option (list nat)) (st : Tune) : Tune :=
    let kept := match use_hits with
                | None => hits
                | Some l => map snd (filter (fun ih => existsb (Nat.eqb (fst ih)) l) (combine (seq 0 (length hits)) hits))
                end in
    mkTune (Some (map fst kept)) (Some (map snd kept)) (t_tune st) (t_peak_x st) (t_peak_y st) (t_k_x st) (t_k_y st).
End Tune.
