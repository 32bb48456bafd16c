(** Model of the numerical helpers of xboa/common/_common.py (histograms, sorting, grids,
    shells, multiprocessing of a list) and of Bunch.histogram.
    Source: xboa/common/_common.py 252-368, 829-952; xboa/bunch/_bunch.py 1507-1563.
    Numbers are real numbers. *)
From Coq Require Import Reals ZArith List Bool.
From Verif Require Import PyLibModel HitPyModel.
Import ListNotations.
Open Scope list_scope.
Open Scope R_scope.

Definition rltb (x y : R) : bool := if Rlt_dec x y then true else false.

Inductive CErr := CIndexError | CValueError | CZeroDivision | CTypeError | CLinAlg.

(** ---- min_max, 252-280 ----------------------------------------------------------- *)

(** Python min and max of a list that is not empty. *)
Fixpoint py_min (l : list R) (m : R) : R :=
  match l with [] => m | x :: r => py_min r (if rltb x m then x else m) end.
Fixpoint py_max (l : list R) (m : R) : R :=
  match l with [] => m | x :: r => py_max r (if rltb m x then x else m) end.

(** 266-270: the loop over the weights.  [shared] is [true] if new_floats is the list of
    the caller (266), which then grows while it is read. *)
Fixpoint mm_loop (shared : bool) (ws : list R) (ind : nat) (xs new : list R)
  : CErr + (list R * list R) :=
  match ws with
  | [] => inr (xs, new)
  | w :: r =>
      if rltb (1 / 1000000) w then
        match nth_error xs ind with
        | None => inl CIndexError
        | Some x =>
            if shared then mm_loop shared r (S ind) (xs ++ [x]) (xs ++ [x])
            else mm_loop shared r (S ind) xs (new ++ [x])
        end
      else mm_loop shared r (S ind) xs new
  end.

(** 252-280: result, and the list of the caller afterwards. *)
Definition min_max (xs ws : list R) (margin : R) (xmin xmax : option R)
  : CErr + (R * R * list R) :=
  let shared := negb (Nat.eqb (length ws) (length xs)) in
  match mm_loop shared ws 0 xs (if shared then xs else []) with
  | inl e => inl e
  | inr (xs', new) =>
      let (lo, hi) := match new with [] => (0, 0) | y :: r => (py_min r y, py_max r y) end in
      let delta := (hi - lo) * margin in
      let lo1 := lo - delta in
      let hi1 := hi + delta in
      let small := rltb (hi1 - lo1) (1 / 1000000000) in
      let lo2 := if small then lo1 - 1 else lo1 in
      let hi2 := if small then hi1 + 1 else hi1 in
      inr (match xmin with Some a => a | None => lo2 end,
           match xmax with Some b => b | None => hi2 end, xs')
  end.

(** ---- multisort, 282-297 ---------------------------------------------------------- *)

Fixpoint all_opt {A} (l : list (option A)) : option (list A) :=
  match l with
  | [] => Some []
  | Some x :: r => match all_opt r with Some s => Some (x :: s) | None => None end
  | None :: _ => None
  end.

(** 285-289: the rows; an entry is missing if a list is shorter than the first one. *)
Definition rows_of {A} (cols : list (list A)) (n : nat) : option (list (list A)) :=
  all_opt (map (fun i => all_opt (map (fun c => nth_error c i) cols)) (seq 0 n)).

(** 291-292: sorted by the first entry of each row. *)
Definition row_ltb {A} (ltb : A -> A -> bool) (a b : list A) : bool :=
  match a, b with x :: _, y :: _ => ltb x y | _, _ => false end.

(** 294-297: write the rows back; entries of a list beyond the length of the first list
    stay as they are. *)
Fixpoint column {A} (rows : list (list A)) (i : nat) (old : list A) : list A :=
  match rows, old with
  | r :: rs, x :: xs => nth i r x :: column rs i xs
  | _, _ => old
  end.
Definition write_back {A} (rows : list (list A)) (cols : list (list A)) : list (list A) :=
  map (fun ic => column rows (fst ic) (snd ic)) (combine (seq 0 (length cols)) cols).

(** The lists are assumed to be different objects. *)
Definition multisort {A} (ltb : A -> A -> bool) (cols : list (list A)) : CErr + list (list A) :=
  match cols with
  | [] => inl CIndexError
  | first :: _ =>
      match rows_of cols (length first) with
      | None => inl CIndexError
      | Some rows => inr (write_back (sort (row_ltb ltb) rows) cols)
      end
  end.

(** ---- n_bins, 299-320 -------------------------------------------------------------- *)

(** Python int() of a float that is not negative. *)
Definition int_of (x : R) : Z := Rfloor x.
(** x**a for x >= 0. *)
Definition power (x a : R) : R := if Req_EM_T x 0 then 0 else Rpower x a.

Definition n_bins (n_points : nat) (nx ny nz : option Z) (n_dim : Z) : Z * Z * Z :=
  let n := INR n_points in
  let auto (user : option Z) (value : option Z) :=
    match user with Some k => k | None => match value with Some k => k | None => 0%Z end end in
  let one := (int_of (n / 10) + 1)%Z in
  let two := (int_of (power n (7 / 10) / 10) + 1)%Z in
  let three := (int_of (power n (1 / 2) / 10) + 1)%Z in
  (auto nx (if Z.eqb n_dim 1 then Some one else if Z.eqb n_dim 2 then Some two
            else if Z.eqb n_dim 3 then Some three else None),
   auto ny (if Z.eqb n_dim 2 then Some two else if Z.eqb n_dim 3 then Some three else None),
   auto nz (if Z.eqb n_dim 3 then Some three else None)).

(** ---- histogram, 322-350 ------------------------------------------------------------ *)

(** contents[p,q] += w *)
Definition add_to (m : list (list R)) (p q : nat) (w : R) : list (list R) :=
  match nth_error m p with
  | None => m
  | Some row => match nth_error row q with
                | None => m
                | Some x => set_nth m p (set_nth row q (x + w))
                end
  end.

(** 343-347: the loop over the values; the numbers p and q of the code are one less. *)
Fixpoint fill (xb yb : list R) (xs ys ws : list R) (m : list (list R)) : CErr + list (list R) :=
  match xs with
  | [] => inr m
  | x :: xr =>
      match ys with
      | [] => inl CIndexError
      | y :: yr =>
          let p := bisect_right rltb xb x in
          let q := bisect_right rltb yb y in
          if ((1 <=? p) && (p <? length xb) && (1 <=? q) && (q <? length yb))%nat%bool then
            match ws with
            | [] => inl CIndexError
            | w :: wr => fill xb yb xr yr wr (add_to m (p - 1) (q - 1) w)
            end
          else fill xb yb xr yr (tl ws) m
      end
  end.

Definition histogram (xs xb : list R) (y : option (list R * list R)) (weights : option (list R))
  : CErr + (list (list R) * list R * list R) :=
  let ws := match weights with Some w => w | None => map (fun _ => 1) xs end in
  let (ys, yb) := match y with Some p => p | None => (map (fun _ => 0) xs, [-1; 1]) end in
  match xb, yb with
  | [], _ | _, [] => inl CValueError     (* numpy.zeros with a negative dimension *)
  | _, _ =>
      match fill xb yb xs ys ws (repeat (repeat 0 (length yb - 1)) (length xb - 1)) with
      | inl e => inl e
      | inr m => inr (m, xb, match y with Some _ => yb | None => [] end)
      end
  end.

(** ---- get_bin_edges, 352-368 --------------------------------------------------------- *)
Definition get_bin_edges (xs : list R) (n : Z) (xmin xmax : option R) : CErr + list R :=
  match min_max xs [] 0 None None with
  | inl e => inl e
  | inr (lo, hi, _) =>
      let lo' := match xmin with Some a => a | None => lo end in
      let hi' := match xmax with Some b => b | None => hi end in
      if Z.eqb n 0 then inl CZeroDivision
      else
        let delta := (hi' - lo') / IZR n in
        inr (map (fun i => lo' + delta * INR i) (seq 0 (Z.to_nat (n + 1))))
  end.

(** ---- Bunch.histogram, _bunch.py 1507-1563 ------------------------------------------- *)

(** [xs], [ys] are the values of the two variables for the hits of the bunch in the units
    asked for, [ux], [uy] the sizes of the units, [ws] the weights. *)
Definition bunch_histogram (xs ws : list R) (ux : R) (y : option (list R * R))
    (nx ny : option Z) (xmin xmax ymin ymax : option R)
  : CErr + (list (list R) * list R * list R) :=
  let scale u o := match o with Some a => Some (a * u) | None => None end in
  match y with
  | None =>
      let '(nx', _, _) := n_bins (length xs) nx (Some 1%Z) None 1 in
      match get_bin_edges xs nx' (scale ux xmin) (scale ux xmax) with
      | inl e => inl e
      | inr xb => histogram xs xb None (Some ws)
      end
  | Some (ys, uy) =>
      (* 1534: the 2 is passed as number of z bins *)
      let '(nx', ny', _) := n_bins (length ys) nx ny (Some 2%Z) 1 in
      match get_bin_edges ys ny' (scale uy ymin) (scale uy ymax) with
      | inl e => inl e
      | inr yb =>
          match get_bin_edges xs nx' (scale ux xmin) (scale ux xmax) with
          | inl e => inl e
          | inr xb => histogram xs xb (Some (ys, yb)) (Some ws)
          end
      end
  end.

(** ---- make_grid, 829-850 -------------------------------------------------------------- *)
Definition grid_pos (n j : nat) : R := (2 * INR j) / (INR n - 1) - 1.

Definition grid_step (n i : nat) (pv : list (list R)) : list (list R) :=
  pv ++ flat_map (fun j => map (fun v => set_nth v i (grid_pos n j)) pv) (seq 1 (n - 1)).

Definition make_grid (d n : nat) : list (list R) :=
  fold_left (fun pv i => grid_step n i pv) (seq 0 d) [repeat (-1) d].

(** ---- normalise_vector and make_shell, 852-897 ---------------------------------------- *)
(** vector * matrix * vector.transpose() *)
Definition qform (m : list (list R)) (v : list R) : R := dot v (map (fun row => dot row v) m).

(** 882-897.  A negative form gives nan, which is rejected; the form 0 gives an infinite
    scale, which is not (result [None]: not a number). *)
Definition normalise_vector (v : list R) (minv : list (list R)) : CErr + option (list R) :=
  let q := qform minv v in
  if rltb q 0 then inl CValueError
  else if Req_EM_T q 0 then inr None
  else inr (Some (map (fun x => x * (1 / sqrt q)) v)).

Definition float_tolerance : R := 1 / 1000000000.

Definition vadd (a b : list R) : list R := map (fun xy => fst xy + snd xy) (combine a b).

(** 871-880: the loop; the results of normalise_vector are as above. *)
Fixpoint shell_loop (minv : list (list R)) (mean : list R) (grid : list (list R))
  : CErr + list (option (list R)) :=
  match grid with
  | [] => inr []
  | v :: r =>
      if rltb float_tolerance (dot v v) then
        match normalise_vector v minv with
        | inl e => inl e
        | inr p =>
            match shell_loop minv mean r with
            | inl e => inl e
            | inr s => inr (option_map (fun u => vadd u mean) p :: s)
            end
        end
      else shell_loop minv mean r
  end.

(** numpy.linalg.inv is the argument [inv]. *)
Definition make_shell (inv : list (list R) -> option (list (list R))) (n : nat)
    (ellipse : list (list R)) (mean : option (list R)) : CErr + list (option (list R)) :=
  let d := length ellipse in
  let grid := make_grid d n in
  let mean' := match mean with Some m => m | None => repeat 0 d end in
  match inv ellipse with
  | None => inl CLinAlg
  | Some minv => shell_loop minv mean' grid
  end.

(** ---- process_list, 899-952 -------------------------------------------------------------- *)

(** What a call does: it returns a value or raises an exception. *)
Inductive Outcome (V : Type) := Returned (v : V) | Raised (e : V).
Arguments Returned {V} v.
Arguments Raised {V} e.

(** The pool of worker processes: jobs not started, jobs being run, and the queue of
    (index, outcome) pairs.  multiprocessing.Pool.map hands the jobs to the workers in any
    order; each worker puts the outcome on the queue when it is done. *)
Record Pool (A V : Type) := mkPool {
  p_todo : list (nat * A);
  p_running : list (nat * A);
  p_queue : list (nat * Outcome V)
}.
Arguments mkPool {A V} _ _ _.
Arguments p_todo {A V} _.
Arguments p_running {A V} _.
Arguments p_queue {A V} _.

Inductive pool_step {A V} (f : A -> Outcome V) (workers : nat) : Pool A V -> Pool A V -> Prop :=
| start_job : forall a job b run q,
    (length run < workers)%nat ->
    pool_step f workers (mkPool (a ++ job :: b) run q) (mkPool (a ++ b) (job :: run) q)
| finish_job : forall todo a i x b q,        (* __function_with_queue, 899-914 *)
    pool_step f workers (mkPool todo (a ++ (i, x) :: b) q)
                        (mkPool todo (a ++ b) (q ++ [(i, f x)])).

(** enumerate(l) *)
Fixpoint enumerate {A} (i : nat) (l : list A) : list (nat * A) :=
  match l with [] => [] | x :: r => (i, x) :: enumerate (S i) r end.

(** 935: all jobs are waiting. *)
Definition pool_init {A V} (args : list A) : Pool A V := mkPool (enumerate 0 args) [] [].

(** pool.map returns when nothing waits and nothing runs. *)
Definition pool_done {A V} (p : Pool A V) : Prop := p_todo p = [] /\ p_running p = [].

(** 939-944: out_list.sort() compares the pairs: the index first, then the outcomes with
    whatever "<" is defined for them. *)
Definition pair_ltb {V} (olt : Outcome V -> Outcome V -> bool) (a b : nat * Outcome V) : bool :=
  if Nat.eqb (fst a) (fst b) then olt (snd a) (snd b) else Nat.ltb (fst a) (fst b).
Definition collect {V} (olt : Outcome V -> Outcome V -> bool) (q : list (nat * Outcome V))
  : list (Outcome V) :=
  map snd (sort (pair_ltb olt) q).
