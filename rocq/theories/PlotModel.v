(** Model of the plotting functions: what is handed to ROOT and to matplotlib.  Sources:
    xboa/common/_common.py (line numbers with "common"), xboa/common/matplotlib_wrapper.py ("wrapper") and
    xboa/bunch/_bunch.py ("bunch").  Numbers are real numbers.

    Simplified: colours, line styles and stats boxes are left out; lists given as different arguments
    are different objects; a plot with a value that is nan (or complex) is not followed ([PNan]);
    ROOT, matplotlib and numpy are installed. *)
From Coq Require Import Reals ZArith String List Bool DecimalString.
From Verif Require Import Num WeightModel HitcoreModel PyLibModel BunchModel HitPyModel
  MomentModel BunchNumModel HitPySpec CommonModel EllipseModel TableModel QueryModel.
Import ListNotations.
Open Scope string_scope.
Open Scope list_scope.
Open Scope R_scope.

(** Exceptions; [PQuery]: of the calculation of a value. *)
Inductive PErr := PIndexError | PTypeError | PValueError | PQuery (e : MErr) | PNan.

(** str() of a natural number. *)
Definition nat_str (k : nat) : string := NilZero.string_of_uint (Nat.to_uint k).

(** ---- ROOT -------------------------------------------------------------------------- *)

(** A TH1D or TH2D: name, title (with the titles of the axes), bins and limits of the axes, calls of
    Fill: x, y (0 for a TH1D) and weight. *)
Record RootHist := mkRootHist {
  rh_name : string; rh_title : string; rh_2d : bool;
  rh_nx : Z; rh_x : R * R; rh_ny : Z; rh_y : R * R; rh_fills : list (R * R * R) }.

(** A TGraph: name and points. *)
Record RootGraph := mkRootGraph { rg_name : string; rg_points : list (R * R) }.

(** common 132-134: the objects that are kept alive, the oldest first; for a canvas its name. *)
Record Kept := mkKept { k_canvas : list string; k_hist : list RootHist; k_graph : list RootGraph }.

(** common 370-391: make_root_canvas; the name of the canvas. *)
Definition make_root_canvas (k : Kept) (name : string) : Kept * string :=
  let s := (name ++ "-" ++ nat_str (List.length (k_canvas k)))%string in
  (mkKept (k_canvas k ++ [s]) (k_hist k) (k_graph k), s).

(** Exceptions of min_max and multisort. *)
Definition of_cerr {A} (e : CErr + A) : PErr + A :=
  match e with
  | inl CTypeError => inl PTypeError
  | inl CValueError => inl PValueError
  | inl _ => inl PIndexError
  | inr a => inr a
  end.

(** PyROOT takes no None for a number of bins. *)
Definition bins_arg (n : option Z) : PErr + Z :=
  match n with Some z => inr z | None => inl PTypeError end.

(** common 126, 127: rg.histo_margin, rg.graph_margin. *)
Definition histo_margin : R := 0.
Definition graph_margin : R := 1 / 10.

(** common 425-430, 434-439: the calls of Fill.  (The lists of x and of y values have the same length: min_max
    makes them longer by the same number.) *)
Definition fills (xs ys ws : list R) : list (R * R * R) :=
  combine (combine xs ys)
    (if Nat.eqb (List.length ws) (List.length xs) then ws else map (fun _ => 1) xs).

(** common 393-445: make_root_histogram; also the lists of the caller afterwards. *)
Definition make_root_histogram (k : Kept) (name : string) (xs : list R) (xt : string) (nx : option Z)
    (ys : list R) (yt : string) (ny : option Z) (ws : list R) (xmin xmax ymin ymax : option R)
    (title : string) : Kept * (PErr + (RootHist * list R * list R)) :=
  let nm := (name ++ " " ++ nat_str (List.length (k_hist k)))%string in
  let keep h := mkKept (k_canvas k) (k_hist k ++ [h]) (k_graph k) in
  if Nat.eqb (List.length ys) (List.length xs) then
    match of_cerr (min_max xs ws histo_margin xmin xmax) with
    | inl e => (k, inl e)
    | inr (xl, xh, xs') =>
        match of_cerr (min_max ys ws histo_margin ymin ymax) with
        | inl e => (k, inl e)
        | inr (yl, yh, ys') =>
            match bins_arg nx, bins_arg ny with
            | inr a, inr b =>
                let h := mkRootHist nm (title ++ ";" ++ xt ++ ";" ++ yt) true a (xl, xh) b (yl, yh)
                           (fills xs' ys' ws) in
                (keep h, inr (h, xs', ys'))
            | _, _ => (k, inl PTypeError)
            end
        end
    end
  else
    match of_cerr (min_max xs ws histo_margin xmin xmax) with
    | inl e => (k, inl e)
    | inr (xl, xh, xs') =>
        match bins_arg nx with
        | inl e => (k, inl e)
        | inr a =>
            let h := mkRootHist nm (title ++ ";" ++ xt) false a (xl, xh) 0 (0, 0)
                       (fills xs' (map (fun _ => 0) xs') ws) in
            (keep h, inr (h, xs', ys))
        end
    end.

(** multisort of two lists of numbers (common 594, 630, 696). *)
Definition sort_two (xs ys : list R) : PErr + (list R * list R) :=
  match of_cerr (multisort rltb [xs; ys]) with
  | inl e => inl e
  | inr [a; b] => inr (a, b)
  | inr _ => inl PIndexError
  end.

(** common 564-609: make_root_graph.  The lists are copied (588-589). *)
Definition make_root_graph (k : Kept) (name : string) (xs : list R) (xt : string) (ys : list R) (yt : string)
    (srt : bool) (xmin xmax ymin ymax : option R) (title : string)
    : Kept * (PErr + (RootHist * RootGraph)) :=
  if (Nat.eqb (List.length xs) 0 || negb (Nat.eqb (List.length xs) (List.length ys)))%bool then (k, inl PIndexError)
  else
    match (if srt then sort_two xs ys else inr (xs, ys)) with
    | inl e => (k, inl e)
    | inr (xs', ys') =>
        match of_cerr (min_max xs' [] graph_margin xmin xmax), of_cerr (min_max ys' [] graph_margin ymin ymax) with
        | inr (xl, xh, _), inr (yl, yh, _) =>
            match make_root_histogram k name [] xt (Some 1000%Z) [] yt (Some 1000%Z) []
                    (Some xl) (Some xh) (Some yl) (Some yh) title with
            | (k1, inl e) => (k1, inl e)
            | (k1, inr (h, _, _)) =>
                let g := mkRootGraph name (combine xs' ys') in
                (mkKept (k_canvas k1) (k_hist k1) (k_graph k1 ++ [g]), inr (h, g))
            end
        | _, _ => (k, inl PIndexError)
        end
    end.

(** common 667-668: the points of one graph; [None]: IndexError. *)
Definition points_of (xs ys : list R) : option (list (R * R)) :=
  all_opt (map (fun i => match nth_error xs i, nth_error ys i with
                         | Some x, Some y => Some (x, y) | _, _ => None end) (seq 0 (List.length xs))).

(** common 663-669: the loop over the graphs. *)
Fixpoint multi_loop (k : Kept) (xss yss : list (list R)) (acc : list RootGraph) : Kept * (PErr + list RootGraph) :=
  match xss with
  | [] => (k, inr acc)
  | xs :: xr =>
      match (match yss with
             | [] => match xs with [] => Some [] | _ => None end
             | ys :: _ => points_of xs ys
             end) with
      | None => (k, inl PIndexError)
      | Some p => let g := mkRootGraph "" p in
                  multi_loop (mkKept (k_canvas k) (k_hist k) (k_graph k ++ [g])) xr (tl yss) (acc ++ [g])
      end
  end.

(** common 641-672: make_root_multigraph. *)
Definition make_root_multigraph (k : Kept) (name : string) (xss : list (list R)) (xt : string)
    (yss : list (list R)) (yt : string) : Kept * (PErr + (RootHist * list RootGraph)) :=
  let nm := (name ++ " " ++ nat_str (List.length (k_hist k)))%string in
  match of_cerr (min_max (concat xss) [] graph_margin None None), of_cerr (min_max (concat yss) [] graph_margin None None) with
  | inr (xl, xh, _), inr (yl, yh, _) =>
      let h := mkRootHist nm (";" ++ xt ++ ";" ++ yt) true 1000 (xl, xh) 1000 (yl, yh) [] in
      match multi_loop k xss yss [] with
      | (k1, inl e) => (k1, inl e)
      | (k1, inr gs) => (mkKept (k_canvas k1) (k_hist k1 ++ [h]) (k_graph k1), inr (h, gs))
      end
  | _, _ => (k, inl PIndexError)
  end.

(** common 740-750: clear_root; 750 names _canvas_persistent again. *)
Definition clear_root (k : Kept) : Kept := mkKept [] [] (k_graph k).

(** ---- matplotlib -------------------------------------------------------------------- *)

(** What is drawn: a line, points, a hexbin plot with its grid, or a hist2d with its numbers of bins. *)
Inductive Artist :=
| ALine (xs ys : list R) | APoints (xs ys : list R)
| AHexbin (xs ys : list R) (ws : option (list R)) (nx ny : Z)
| AHist2d (xs ys : list R) (ws : option (list R)) (nx ny : Z).

(** Number of the figure, artists, labels of the axes if set, limits of the axes if set. *)
Record MPlot := mkMPlot {
  mp_figure : Z; mp_artists : list Artist; mp_xlabel : option string; mp_ylabel : option string;
  mp_xlim : option (R * R); mp_ylim : option (R * R) }.

(** wrapper 253-261: get_figure_index; [n] is FIGURE_INDEX.  Returns FIGURE_INDEX and the number. *)
Definition get_figure_index (n : Z) (fig : option Z) : Z * Z :=
  match fig with Some f => (n, f) | None => ((n + 1)%Z, (n + 1)%Z) end.

(** numpy.histogram with a number of bins: the edges are equidistant between the smallest and the largest value
    (1/2 to either side if they agree), and the last bin includes its upper edge. *)
Definition np_limits (xs : list R) : R * R :=
  match xs with
  | [] => (0, 1)
  | y :: r => let lo := py_min r y in let hi := py_max r y in
              if Req_EM_T lo hi then (lo - 1 / 2, hi + 1 / 2) else (lo, hi)
  end.
Definition np_edge (lo hi : R) (n : Z) (i : nat) : R := lo + INR i * ((hi - lo) / IZR n).
Definition rleb (x y : R) : bool := if Rle_dec x y then true else false.
Definition np_in (lo hi : R) (n : Z) (i : nat) (x : R) : bool :=
  (rleb (np_edge lo hi n i) x &&
   (rltb x (np_edge lo hi n (S i)) || (Z.eqb (Z.of_nat (S i)) n && rleb x (np_edge lo hi n (S i)))))%bool.
Fixpoint np_sum (p : R -> bool) (xs ws : list R) : R :=
  match xs, ws with
  | x :: xr, w :: wr => (if p x then w else 0) + np_sum p xr wr
  | _, _ => 0
  end.
Definition np_histogram (xs : list R) (n : Z) (weights : option (list R)) : PErr + (list R * list R) :=
  let ws := match weights with Some w => w | None => map (fun _ => 1) xs end in
  if (n <? 1)%Z then inl PValueError
  else if negb (Nat.eqb (List.length ws) (List.length xs)) then inl PValueError
  else
    let (lo, hi) := np_limits xs in
    inr (map (fun i => np_sum (np_in lo hi n i) xs ws) (seq 0 (Z.to_nat n)),
         map (np_edge lo hi n) (seq 0 (S (Z.to_nat n)))).

(** common 551, wrapper 63: the first bin that is not empty; the content is read before the index is compared. *)
Fixpoint first_filled (n : list R) (index : nat) : PErr + nat :=
  match n with
  | [] => inl PIndexError
  | c :: r => if rltb (Rabs c) (1 / 1000000000) then first_filled r (S index) else inr index
  end.

(** common 544-555, wrapper 56-68: the line of a one dimensional histogram. *)
Definition histogram_line (xs : list R) (n : Z) (ws : list R) : PErr + Artist :=
  match np_histogram xs n (match ws with [] => None | _ => Some ws end) with
  | inl e => inl e
  | inr (c, edges) =>
      match first_filled c 0 with
      | inl e => inl e
      | inr index =>
          let range := seq index (List.length c - 1 - index) in
          inr (ALine (map (fun i => (nth i edges 0 + nth (S i) edges 0) / 2) range) (map (fun i => nth i c 0) range))
      end
  end.

(** common 522-562: make_matplot_histogram. *)
Definition make_matplot_histogram (n : Z) (xs : list R) (xt : string) (nx : Z) (ys : list R) (yt : string) (ny : Z)
    (ws : list R) : Z * (PErr + MPlot) :=
  let (n1, f) := get_figure_index n None in
  (n1, match xs with
       | [] => inl PIndexError
       | _ =>
           if negb (Nat.eqb (List.length ys) (List.length xs)) then
             match histogram_line xs nx ws with
             | inl e => inl e
             | inr a => inr (mkMPlot f [a] (Some xt) None None None)
             end
           else inr (mkMPlot f [AHexbin xs ys (if Nat.eqb (List.length ws) (List.length xs) then Some ws else None) nx ny]
                       (Some xt) (Some yt) None None)
       end).

(** wrapper 29-77: make_histogram. *)
Definition wrapper_histogram (n : Z) (xs : list R) (xt : string) (nx : Z) (ys : list R) (yt : string) (ny : Z)
    (ws : list R) (fig : option Z) : Z * (PErr + MPlot) :=
  let (n1, f) := get_figure_index n fig in
  (n1, match xs with
       | [] => inl PIndexError
       | _ =>
           if negb (Nat.eqb (List.length ys) (List.length xs)) then
             match histogram_line xs nx ws with
             | inl e => inl e
             | inr a => inr (mkMPlot f [a] (Some xt) None None None)
             end
           else inr (mkMPlot f [AHist2d xs ys (if Nat.eqb (List.length ws) (List.length xs) then Some ws else None) nx ny]
                       (Some xt) (Some yt) None None)
       end).

(** common 627-639, wrapper 106-122: a line with limits around it; also the lists of the caller afterwards. *)
Definition line_plot (f : Z) (xs : list R) (xt : string) (ys : list R) (yt : string) (srt : bool)
    : PErr + (MPlot * list R * list R) :=
  if (Nat.eqb (List.length xs) 0 || negb (Nat.eqb (List.length xs) (List.length ys)))%bool then inl PIndexError
  else
    match (if srt then sort_two xs ys else inr (xs, ys)) with
    | inl e => inl e
    | inr (xs', ys') =>
        match of_cerr (min_max xs' [] graph_margin None None), of_cerr (min_max ys' [] graph_margin None None) with
        | inr (xl, xh, _), inr (yl, yh, _) =>
            inr (mkMPlot f [ALine xs' ys'] (Some xt) (Some yt) (Some (xl, xh)) (Some (yl, yh)), xs', ys')
        | _, _ => inl PIndexError
        end
    end.

(** common 611-639: make_matplot_graph; its argument sort is not used. *)
Definition make_matplot_graph (n : Z) (xs : list R) (xt : string) (ys : list R) (yt : string) (srt : bool)
    : Z * (PErr + (MPlot * list R * list R)) :=
  let (n1, f) := get_figure_index n None in (n1, line_plot f xs xt ys yt true).

(** wrapper 79-122: make_graph. *)
Definition wrapper_graph (n : Z) (xs : list R) (xt : string) (ys : list R) (yt : string) (srt : bool) (fig : option Z)
    : Z * (PErr + (MPlot * list R * list R)) :=
  let (n1, f) := get_figure_index n fig in (n1, line_plot f xs xt ys yt srt).

(** common 694-697: the loop over the graphs; each pair of lists is sorted in place. *)
Fixpoint multi_lines (xss yss : list (list R)) : PErr + (list Artist * list (list R) * list (list R)) :=
  match xss with
  | [] => inr ([], [], yss)
  | xs :: xr =>
      match yss with
      | [] => inl PIndexError
      | ys :: yr =>
          match sort_two xs ys with
          | inl e => inl e
          | inr (a, b) =>
              if Nat.eqb (List.length a) (List.length b) then
                match multi_lines xr yr with
                | inl e => inl e
                | inr (l, xo, yo) => inr (ALine a b :: l, a :: xo, b :: yo)
                end
              else inl PValueError (* pyplot.plot: x and y must have the same first dimension *)
          end
      end
  end.

(** common 674-702: make_matplot_multigraph; also the lists of the caller afterwards. *)
Definition make_matplot_multigraph (n : Z) (xss : list (list R)) (xt : string) (yss : list (list R)) (yt : string)
    : Z * (PErr + (MPlot * list (list R) * list (list R))) :=
  let (n1, f) := get_figure_index n None in
  (n1, match of_cerr (min_max (concat xss) [] graph_margin None None), of_cerr (min_max (concat yss) [] graph_margin None None) with
       | inr (xl, xh, _), inr (yl, yh, _) =>
           match multi_lines xss yss with
           | inl e => inl e
           | inr (l, xo, yo) => inr (mkMPlot f l (Some xt) (Some yt) (Some (xl, xh)) (Some (yl, yh)), xo, yo)
           end
       | _, _ => inl PIndexError
       end).

(** common 704-724: make_matplot_scatter; the label of the y axis is x_axis_string (723).  pyplot.scatter
    takes lists of one length. *)
Definition make_matplot_scatter (n : Z) (xs : list R) (xt : string) (ys : list R) (yt : string) : Z * (PErr + MPlot) :=
  let (n1, f) := get_figure_index n None in
  (n1, if Nat.eqb (List.length xs) 0 then inl PIndexError
       else if Nat.eqb (List.length xs) (List.length ys) then
         inr (mkMPlot f [APoints xs ys] (Some xt) (Some xt) None None)
       else inl PValueError).

(** wrapper 169-196: make_scatter. *)
Definition wrapper_scatter (n : Z) (xs : list R) (xt : string) (ys : list R) (yt : string) (fig : option Z) : Z * (PErr + MPlot) :=
  let (n1, f) := get_figure_index n fig in
  (n1, if (Nat.eqb (List.length xs) 0 || negb (Nat.eqb (List.length xs) (List.length ys)))%bool then inl PIndexError
       else inr (mkMPlot f [APoints xs ys] (Some xt) (Some yt) None None)).

(** ---- the ratio of two histograms, wrapper 198-241 ----------------------------------------- *)

(** wrapper 222-223: numpy.array(h).transpose().flatten(); the rows have one length, n columns. *)
Definition flat_transpose (h : list (list R)) (n : nat) : list R :=
  concat (map (fun j => map (fun row => nth j row 0) h) (seq 0 n)).

(** wrapper 224-232. *)
Definition ratio (on_nan a b : R) : R := if Req_EM_T b 0 then on_nan else a / b.

(** wrapper 234, 239: the centres of the bins. *)
Fixpoint centres (edges : list R) : list R :=
  match edges with
  | a :: ((b :: _) as r) => (a + b) / 2 :: centres r
  | _ => []
  end.

(** hist2d with edges and weights: the content of bin (i, j); the last bins include their upper edge. *)
Definition in_edge_bin (edges : list R) (i : nat) (x : R) : bool :=
  match nth_error edges i, nth_error edges (S i) with
  | Some a, Some b =>
      (rleb a x && (rltb x b || (Nat.eqb (S (S i)) (List.length edges) && rleb x b)))%bool
  | _, _ => false
  end.
Fixpoint hist2d_sum (p : R -> R -> bool) (xs ys ws : list R) : R :=
  match xs, ys, ws with
  | x :: xr, y :: yr, w :: wr => (if p x y then w else 0) + hist2d_sum p xr yr wr
  | _, _, _ => 0
  end.
Definition hist2d (xs ys ws xedges yedges : list R) : list (list R) :=
  map (fun i => map (fun j => hist2d_sum (fun x y => in_edge_bin xedges i x && in_edge_bin yedges j y)%bool xs ys ws)
                  (seq 0 (List.length yedges - 1))) (seq 0 (List.length xedges - 1)).

(** wrapper 217-221: the number of rows, and the number of columns of each row; then numpy.array makes a two
    dimensional array only if the rows of h1 have one length ([PValueError] otherwise). *)
Definition plot_hist2d_ratio (h1 h2 : list (list R)) (xedges yedges : list R) (on_nan : R) : PErr + list (list R) :=
  if negb (Nat.eqb (List.length h1) (List.length h2)) then inl PValueError
  else if negb (forallb (fun ab => Nat.eqb (List.length (fst ab)) (List.length (snd ab))) (combine h1 h2)) then inl PValueError
  else
    let n := match h1 with [] => 0%nat | row :: _ => List.length row end in
    if negb (forallb (fun row => Nat.eqb (List.length row) n) h1) then inl PValueError
    else
      let h3 := map (fun ab => ratio on_nan (fst ab) (snd ab)) (combine (flat_transpose h1 n) (flat_transpose h2 n)) in
      let x_a := concat (repeat (centres xedges) (List.length yedges - 1)) in
      let y_a := concat (map (fun c => repeat c (List.length xedges - 1)) (centres yedges)) in
      if Nat.eqb (List.length x_a) (List.length h3) then inr (hist2d x_a y_a h3 xedges yedges)
      else inl PValueError.

(** ---- bunches ------------------------------------------------------------------------ *)

Definition of_merr {A} (e : MErr + A) : PErr + A := match e with inl e => inl (PQuery e) | inr a => inr a end.
(** A list without nan. *)
Definition numbers (l : list (option R)) : PErr + list R :=
  match all_opt l with Some r => inr r | None => inl PNan end.

(** " ["+units+"]" (e.g. bunch 1608-1609); [tail] is "" or, for matplotlib in some functions, " ". *)
Definition unit_label (u tail : string) : string := if String.eqb u "" then "" else (" [" ++ u ++ "]" ++ tail)%string.
(** bunch 1735-1740, 1852-1857: "( " and the variables, each with a space, and ")". *)
Definition call_label (name : string) (vars : list string) (tail : string) : string :=
  (name ++ "( " ++ String.concat "" (map (fun v => v ++ " ") vars) ++ ")" ++ tail)%string.

Section Plot.
  Variable extra : RWorld -> list nat -> string -> nat -> option RVal.
  Variable flag : bool.
  Variable inv : Matrix -> option Matrix.
  Variable w : RWorld.

  (** bunch 1606-1607: the weights of the hits. *)
  Definition hit_weight (l : nat) : R := match hit_get w l "weight" with Some v => num_of v | None => 0 end.

  (** list_get_hit_variable([name], [unit])[0]. *)
  Definition points_1d (fx : Fixed RNum) (b : Bunch) (name u : string) : PErr + list R :=
    match of_merr (list_get_hit_variable extra flag inv fx w b [name] [u]) with
    | inl e => inl e
    | inr cols => numbers (nth 0 cols [])
    end.

  (** bunch 1565-1626: root_histogram; the canvas if a new one is made, the draw option and the histogram. *)
  Definition root_histogram (k : Kept) (fx : Fixed RNum) (b : Bunch) (x ux y uy : string) (nx ny : option Z)
      (canvas : option string) (xmin xmax ymin ymax : option R) (title draw : string)
      : Kept * (PErr + (string * string * RootHist)) :=
    let n := INR (List.length (b_hits b)) in
    match points_1d fx b x ux with
    | inl e => (k, inl e)
    | inr xs =>
        let auto (m : option Z) (v : Z) := match m with Some z => Some z | None => Some v end in
        let nx1 := if String.eqb y "" then auto nx (int_of (n / 10)) else nx in
        match (if (negb (String.eqb y "") && String.eqb draw "")%bool then
                 match points_1d fx b y uy with
                 | inl e => inl e
                 | inr ys => inr ("COL", ys, auto nx1 (int_of (power n (7 / 10) / 10)), auto ny (int_of (power n (7 / 10) / 10)))
                 end
               else inr (draw, [], nx1, ny)) with
        | inl e => (k, inl e)
        | inr (draw1, ys, nx2, ny2) =>
            let name := if String.eqb y "" then x else (x ++ ":" ++ y)%string in
            let (k1, c) := match canvas with
                           | Some c => (k, c)
                           | None => make_root_canvas k name
                           end in
            let draw2 := match canvas with Some _ => (draw1 ++ "same")%string | None => draw1 end in
            match make_root_histogram k1 name xs (x ++ unit_label ux "") nx2 ys (y ++ unit_label uy "") ny2
                    (map hit_weight (b_hits b)) xmin xmax ymin ymax title with
            | (k2, inl e) => (k2, inl e)
            | (k2, inr (h, _, _)) => (k2, inr (c, draw2, h))
            end
        end
    end.

  (** self.get_hit_variable(hit, name)/Common.units[unit]. *)
  Definition value_of_hit (fx : Fixed RNum) (b : Bunch) (name u : string) (l : nat) : MErr + option R :=
    x <- hit_variable extra flag inv fx w b name None [] l ;; in_unit (Some (Some u)) x.

  (** bunch 1660-1663, 1816-1819: the points of a scatter plot; common 62: float_tolerance. *)
  Definition float_tolerance : R := 1 / 1000000000.
  Definition scatter_points (fx : Fixed RNum) (b : Bunch) (x ux y uy : string) (weightless : bool)
      : PErr + (list R * list R) :=
    let sel := filter (fun l => (rltb float_tolerance (Rabs (hit_weight l)) || weightless)%bool) (b_hits b) in
    match of_merr (all_inr (map (fun l => a <- value_of_hit fx b x ux l ;; c <- value_of_hit fx b y uy l ;; inr (a, c)) sel)) with
    | inl e => inl e
    | inr ps =>
        match numbers (map fst ps), numbers (map snd ps) with
        | inr xs, inr ys => inr (xs, ys)
        | _, _ => inl PNan
        end
    end.

  (** bunch 1628-1687: root_scatter_graph; canvas, axes drawn or not, axes and graph. *)
  Definition root_scatter_graph (k : Kept) (fx : Fixed RNum) (b : Bunch) (x y ux uy : string) (weightless : bool)
      (canvas : option string) (xmin xmax ymin ymax : option R) (title : string)
      : Kept * (PErr + (string * bool * RootHist * RootGraph)) :=
    match scatter_points fx b x ux y uy weightless with
    | inl e => (k, inl e)
    | inr (xs, ys) =>
        let name := (x ++ ":" ++ y)%string in
        match make_root_graph k name xs (x ++ unit_label ux "") ys (y ++ unit_label uy "") true xmin xmax ymin ymax title with
        | (k1, inl e) => (k1, inl e)
        | (k1, inr (h, g)) =>
            match canvas with
            | Some c => (k1, inr (c, false, h, g))
            | None => let (k2, c) := make_root_canvas k1 name in (k2, inr (c, true, h, g))
            end
        end
    end.

  (** bunch.get(name, vars)/Common.units[unit]. *)
  Definition value_of_bunch (fb : Fixed RNum * Bunch) (name : string) (vars : list string) (u : string) : MErr + option R :=
    x <- bunch_get extra flag (fst fb) w (snd fb) name vars ;; in_unit (Some (Some u)) x.
  Definition point_of_bunch (fb : Fixed RNum * Bunch) (x : string) (xv : list string) (ux : string)
      (y : string) (yv : list string) (uy : string) : MErr + (option R * option R) :=
    a <- value_of_bunch fb x xv ux ;; c <- value_of_bunch fb y yv uy ;; inr (a, c).

  (** bunch 1726-1734: the points of the bunches that have both values. *)
  Fixpoint graph_points (bs : list (Fixed RNum * Bunch)) (x : string) (xv : list string) (ux : string)
      (y : string) (yv : list string) (uy : string) : list (option R * option R) :=
    match bs with
    | [] => []
    | fb :: r => match point_of_bunch fb x xv ux y yv uy with
                 | inl _ => graph_points r x xv ux y yv uy
                 | inr p => p :: graph_points r x xv ux y yv uy
                 end
    end.

  (** bunch 1689-1754: root_graph.  [comparator]: one is given; list.sort takes no positional argument in
      Python 3 (1723). *)
  Definition root_graph (k : Kept) (bs : list (Fixed RNum * Bunch)) (x : string) (xv : list string)
      (y : string) (yv : list string) (ux uy : string) (canvas : option string) (comparator : bool)
      (xmin xmax ymin ymax : option R) (title : string)
      : Kept * (PErr + (string * bool * RootHist * RootGraph)) :=
    if comparator then (k, inl PTypeError)
    else
      let ps := graph_points bs x xv ux y yv uy in
      match numbers (map fst ps), numbers (map snd ps) with
      | inr xs, inr ys =>
          let xl := call_label x xv "" in
          let yl := call_label y yv "" in
          let name := (xl ++ ":" ++ yl)%string in
          match make_root_graph k name xs (xl ++ unit_label ux "") ys (yl ++ unit_label uy "") true xmin xmax ymin ymax title with
          | (k1, inl e) => (k1, inl e)
          | (k1, inr (h, g)) =>
              match canvas with
              | Some c => (k1, inr (c, false, h, g))
              | None => let (k2, c) := make_root_canvas k1 name in (k2, inr (c, true, h, g))
              end
          end
      | _, _ => (k, inl PNan)
      end.

  (** bunch 1757-1796: matplot_histogram. *)
  Definition matplot_histogram (n : Z) (fx : Fixed RNum) (b : Bunch) (x ux y uy : string) : Z * (PErr + MPlot) :=
    let num_evts := INR (List.length (filter (fun l => rltb 0 (Rabs (hit_weight l))) (b_hits b))) in
    match points_1d fx b x ux with
    | inl e => (n, inl e)
    | inr xs =>
        match (if String.eqb y "" then inr ([], num_evts / 10 + 1)
               else match points_1d fx b y uy with
                    | inl e => inl e
                    | inr ys => inr (ys, sqrt num_evts / 10 + 1)
                    end) with
        | inl e => (n, inl e)
        | inr (ys, bins) =>
            make_matplot_histogram n xs (x ++ unit_label ux "") (int_of bins) ys (y ++ unit_label uy "") (int_of bins)
              (map hit_weight (b_hits b))
        end
    end.

  (** bunch 1798-1823: matplot_scatter_graph, up to the call of pyplot.figure (1823). *)
  Definition matplot_scatter_graph (n : Z) (fx : Fixed RNum) (b : Bunch) (x y ux uy : string) (weightless : bool)
      : Z * (PErr + MPlot) :=
    match scatter_points fx b x ux y uy weightless with
    | inl e => (n, inl e)
    | inr (xs, ys) => make_matplot_scatter n xs (x ++ unit_label ux " ") ys (y ++ unit_label uy " ")
    end.

  (** bunch 1825-1861: matplot_graph. *)
  Definition matplot_graph (n : Z) (bs : list (Fixed RNum * Bunch)) (x : string) (xv : list string)
      (y : string) (yv : list string) (ux uy : string) (comparator : bool) : Z * (PErr + MPlot) :=
    if comparator then (n, inl PTypeError)
    else
      match of_merr (all_inr (map (fun fb => point_of_bunch fb x xv ux y yv uy) bs)) with
      | inl e => (n, inl e)
      | inr ps =>
          match numbers (map fst ps), numbers (map snd ps) with
          | inr xs, inr ys =>
              match make_matplot_graph n xs (call_label x xv " " ++ unit_label ux " ") ys (call_label y yv " " ++ unit_label uy " ") true with
              | (n1, inl e) => (n1, inl e)
              | (n1, inr (p, _, _)) => (n1, inr p)
              end
          | _, _ => (n, inl PNan)
          end
      end.
End Plot.

(** ---- histories ----------------------------------------------------------------------- *)

(** Calls that make or remove objects of ROOT; those of bunches with the state of the bunches. *)
Inductive RootCall :=
| RCanvas (name : string)
| RHist (name : string) (xs : list R) (xt : string) (nx : option Z) (ys : list R) (yt : string) (ny : option Z)
    (ws : list R) (xmin xmax ymin ymax : option R) (title : string)
| RGraph (name : string) (xs : list R) (xt : string) (ys : list R) (yt : string) (srt : bool)
    (xmin xmax ymin ymax : option R) (title : string)
| RMulti (name : string) (xss : list (list R)) (xt : string) (yss : list (list R)) (yt : string)
| RBunchHist (ex : RWorld -> list nat -> string -> nat -> option RVal) (flag : bool) (inv : Matrix -> option Matrix) (w : RWorld)
    (fx : Fixed RNum) (b : Bunch) (x ux y uy : string) (nx ny : option Z) (canvas : option string)
    (xmin xmax ymin ymax : option R) (title draw : string)
| RBunchScatter (ex : RWorld -> list nat -> string -> nat -> option RVal) (flag : bool) (inv : Matrix -> option Matrix) (w : RWorld)
    (fx : Fixed RNum) (b : Bunch) (x y ux uy : string) (weightless : bool) (canvas : option string)
    (xmin xmax ymin ymax : option R) (title : string)
| RBunchGraph (ex : RWorld -> list nat -> string -> nat -> option RVal) (flag : bool) (w : RWorld)
    (bs : list (Fixed RNum * Bunch)) (x : string) (xv : list string) (y : string) (yv : list string) (ux uy : string)
    (canvas : option string) (comparator : bool) (xmin xmax ymin ymax : option R) (title : string)
| RClear.

Definition rcall (k : Kept) (c : RootCall) : Kept :=
  match c with
  | RCanvas name => fst (make_root_canvas k name)
  | RHist name xs xt nx ys yt ny ws xmin xmax ymin ymax title =>
      fst (make_root_histogram k name xs xt nx ys yt ny ws xmin xmax ymin ymax title)
  | RGraph name xs xt ys yt srt xmin xmax ymin ymax title =>
      fst (make_root_graph k name xs xt ys yt srt xmin xmax ymin ymax title)
  | RMulti name xss xt yss yt => fst (make_root_multigraph k name xss xt yss yt)
  | RBunchHist ex flag inv w fx b x ux y uy nx ny canvas xmin xmax ymin ymax title draw =>
      fst (root_histogram ex flag inv w k fx b x ux y uy nx ny canvas xmin xmax ymin ymax title draw)
  | RBunchScatter ex flag inv w fx b x y ux uy weightless canvas xmin xmax ymin ymax title =>
      fst (root_scatter_graph ex flag inv w k fx b x y ux uy weightless canvas xmin xmax ymin ymax title)
  | RBunchGraph ex flag w bs x xv y yv ux uy canvas comparator xmin xmax ymin ymax title =>
      fst (root_graph ex flag w k bs x xv y yv ux uy canvas comparator xmin xmax ymin ymax title)
  | RClear => clear_root k
  end.
Definition rcalls (cs : list RootCall) : Kept := fold_left rcall cs (mkKept [] [] []).

(** Calls that make a plot with matplotlib; [fig]: the argument fig_index. *)
Inductive MCall :=
| MHist (xs : list R) (xt : string) (nx : Z) (ys : list R) (yt : string) (ny : Z) (ws : list R)
| MGraph (xs : list R) (xt : string) (ys : list R) (yt : string) (srt : bool)
| MMulti (xss : list (list R)) (xt : string) (yss : list (list R)) (yt : string)
| MScatter (xs : list R) (xt : string) (ys : list R) (yt : string)
| WHist (xs : list R) (xt : string) (nx : Z) (ys : list R) (yt : string) (ny : Z) (ws : list R) (fig : option Z)
| WGraph (xs : list R) (xt : string) (ys : list R) (yt : string) (srt : bool) (fig : option Z)
| WScatter (xs : list R) (xt : string) (ys : list R) (yt : string) (fig : option Z)
| MBunchHist (ex : RWorld -> list nat -> string -> nat -> option RVal) (flag : bool) (inv : Matrix -> option Matrix) (w : RWorld)
    (fx : Fixed RNum) (b : Bunch) (x ux y uy : string)
| MBunchScatter (ex : RWorld -> list nat -> string -> nat -> option RVal) (flag : bool) (inv : Matrix -> option Matrix) (w : RWorld)
    (fx : Fixed RNum) (b : Bunch) (x y ux uy : string) (weightless : bool)
| MBunchGraph (ex : RWorld -> list nat -> string -> nat -> option RVal) (flag : bool) (w : RWorld)
    (bs : list (Fixed RNum * Bunch)) (x : string) (xv : list string) (y : string) (yv : list string) (ux uy : string)
    (comparator : bool).

Definition plot_of {A B} (r : PErr + (MPlot * A * B)) : PErr + MPlot := match r with inl e => inl e | inr (p, _, _) => inr p end.
Definition mcall (n : Z) (c : MCall) : Z * (PErr + MPlot) :=
  match c with
  | MHist xs xt nx ys yt ny ws => make_matplot_histogram n xs xt nx ys yt ny ws
  | MGraph xs xt ys yt srt => let (m, r) := make_matplot_graph n xs xt ys yt srt in (m, plot_of r)
  | MMulti xss xt yss yt => let (m, r) := make_matplot_multigraph n xss xt yss yt in (m, plot_of r)
  | MScatter xs xt ys yt => make_matplot_scatter n xs xt ys yt
  | WHist xs xt nx ys yt ny ws fig => wrapper_histogram n xs xt nx ys yt ny ws fig
  | WGraph xs xt ys yt srt fig => let (m, r) := wrapper_graph n xs xt ys yt srt fig in (m, plot_of r)
  | WScatter xs xt ys yt fig => wrapper_scatter n xs xt ys yt fig
  | MBunchHist ex flag inv w fx b x ux y uy => matplot_histogram ex flag inv w n fx b x ux y uy
  | MBunchScatter ex flag inv w fx b x y ux uy weightless => matplot_scatter_graph ex flag inv w n fx b x y ux uy weightless
  | MBunchGraph ex flag w bs x xv y yv ux uy comparator => matplot_graph ex flag w n bs x xv y yv ux uy comparator
  end.
(** The plots made by a history of calls, each with its call; calls that raise make none. *)
Fixpoint mcalls (n : Z) (cs : list MCall) : list (MCall * MPlot) :=
  match cs with
  | [] => []
  | c :: r => match mcall n c with (m, inl _) => mcalls m r | (m, inr p) => (c, p) :: mcalls m r end
  end.
