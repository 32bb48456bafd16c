(** Model of xboa/algorithms/closed_orbit/_ellipse_closed_orbit_finder.py 93-273: the closed
    orbit finder (the scan 57-91 and the noise statistics 240-273 are in AlgoModel.v).

    The tracking is the argument [track]; a hit is an abstract value read and written by [get]
    and [set]; [same] is Hit.__eq__.  numpy.linalg.inv is the argument [inv].  Deep copies
    and plots are left out. *)
From Coq Require Import Reals List Bool String.
From Verif Require Import Num HitPyModel HitPySpec EllipseModel TransformModel FitModel CommonModel AlgoModel.
Import ListNotations.
Open Scope R_scope.

(** What can come out of the finder other than an iteration.  [OStop] is StopIteration raised in
    the body of the generator; [ORunning]: the loop 179 has not ended. *)
Inductive OErr := OIndex | ORuntime | OValue | OType | OStop | ORunning.

(** 188-216: the data of one iteration. *)
Record Iteration := mkIteration {
  it_points : list (list R);
  it_centre : list R;
  it_ellipse : list (list R);
  it_noise : option (list R)
}.

Section Orbit.
  Variable H : Type.
  Variable get : H -> string -> R.
  Variable set : H -> string -> R -> H.
  Variable same : H -> H -> bool.
  Variable track : H -> list H.
  Variable inv : list (list R) -> option (list (list R)).
  Variable use_seed : bool.
  Variable eps_max : R.

  (** 179-183: the loop; [fuel] bounds the number of passes. *)
  Fixpoint points_loop (fuel n : nat) (hit_list : list H) (next_hit : H) : OErr + list H :=
    if Nat.ltb (List.length hit_list) n then
      match fuel with
      | O => inl ORunning
      | S k =>
          let hit_list := hit_list ++ tl (track next_hit) in
          match rev hit_list with
          | [] => inl OIndex
          | final :: _ =>
              if same final next_hit then inl ORuntime
              else points_loop k n hit_list final
          end
      end
    else inr hit_list.

  (** 175-185: _get_points, with at most [fuel] passes of the loop. *)
  Definition get_points (fuel : nat) (keys : list string) (next_hit : H) (n : nat) : OErr + list (list R) :=
    match points_loop fuel n (if use_seed then [next_hit] else []) next_hit with
    | inl e => inl e
    | inr hits => inr (map (fun h => map (get h) keys) hits)
    end.

  (** 217-238: calculate_ellipse.  Simplified: a determinant that is not positive gives nan or
      infinite entries, thus LinAlgError or ValueError; here it gives no noise ([None]), as does a
      LinAlgError of 229 and a point that does not fit the centre (231). *)
  Definition noise_of (points : list (list R)) (centre : list R) (ellipse : list (list R)) : option (list R) :=
    let n := List.length centre in
    match root (det ellipse) n with
    | None => None
    | Some r =>
        if Req_EM_T r 0 then None
        else match inv (map (map (fun x => x / r)) ellipse) with
             | None => None
             | Some einv =>
                 if forallb (fun p => Nat.eqb (List.length p) n) points then
                   Some (map (fun p =>
                     let x := fun i => nth i p 0 - nth i centre 0 in
                     sum_n n (fun j => sum_n n (fun i => x i * ent einv i j) * x j)) points)
                 else None
             end
    end.
  Definition calculate_ellipse (points : list (list R)) : Iteration :=
    match fit_ellipse inv points eps_max None 10 false with
    | inr (centre, ellipse) => mkIteration points centre ellipse (noise_of points centre ellipse)
    | inl _ => mkIteration points [] [] None
    end.

  (** 140-141: the next hit. *)
  Definition move (h : H) (keys : list string) (values : list R) : H :=
    fold_left (fun h kv => set h (fst kv) (snd kv)) (combine keys values) h.

  (** 121-143: the loop of find_closed_orbit_generator: the iterations yielded, and the exception
      raised in the end; [k] is the number of iterations left. *)
  Fixpoint orbit_loop (k : nat) (keys : list string) (n : nat) (next_hit : H) : list Iteration * OErr :=
    match k with
    | O => ([], OStop)
    | S k' =>
        match get_points n keys next_hit n with
        | inl e => ([], e)
        | inr x_list =>
            let my_co := calculate_ellipse x_list in
            match it_noise my_co with
            | None => ([], if Nat.ltb n (List.length x_list) then OStop else OValue)
            | Some noise =>
                match mean_noise noise, sigma_noise noise with
                | inr m, inr s =>
                    if rltb m s then ([my_co], OStop)
                    else let (l, e) := orbit_loop k' keys n (move next_hit keys (it_centre my_co)) in
                         (my_co :: l, e)
                | _, _ => ([my_co], OValue)
                end
            end
        end
    end.

  (** 93-143: find_closed_orbit_generator called from the seed.  Python 3: [iteration < None] is
      a TypeError (121). *)
  Definition find_closed_orbit (seed : H) (keys : list string) (n : nat) (max_iterations : option nat)
    : list Iteration * OErr :=
    match max_iterations with
    | None => ([], OType)
    | Some k => orbit_loop k keys n seed
    end.

  (** What a for loop over the generator raises.  Python 3.7 and later (PEP 479): StopIteration in
      the body of a generator is a RuntimeError for the caller. *)
  Definition raised (e : OErr) : OErr := match e with OStop => ORuntime | _ => e end.

  (** 145-173: check_closed_orbit; [tests] in the order of the sorted keys. *)
  Definition check_closed_orbit (seed : H) (tests : list (string * R)) (n : nat) : OErr + Iteration :=
    let keys := map fst tests in
    match get_points n keys (move seed keys (map snd tests)) n with
    | inl e => inl e
    | inr x_list => inr (calculate_ellipse x_list)
    end.
End Orbit.
