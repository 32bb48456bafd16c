(** Model of the bunch container: the Python list of hits, the C++ list of hits used for
    statistics, splitting, cutting and removing.
    Source: xboa/bunch/_bunch.py (class Bunch), xboa/core/cpplib/Bunchcore.cc,
    xboa/core/pylib/PyBunchcore.cc, xboa/core/utils/TypeConversions-inl.hh,
    xboa/core/utils/PythonComparator.hh. *)
From Coq Require Import ZArith List Bool String.
From Verif Require Import Num WeightModel HitcoreModel PyLibModel.
Import ListNotations.
Open Scope string_scope.

(** _bunch.py 72-77: a bunch is a list of hit objects (here: their locations) and a
    Bunchcore, i.e. a std::vector of smart pointers, possibly NULL (Bunchcore.hh).
    The covariances and means set by set_covariance_matrix are not modelled here. *)
Record Bunch := mkBunch { b_hits : list nat; b_core : list (option nat) }.

Definition bunch_new : Bunch := mkBunch [] [].

(** Bunchcore.cc 28-34: set_item. *)
Definition core_set_item (core : list (option nat)) (i : nat) (l : nat)
  : list (option nat) :=
  set_nth (core ++ repeat None (S i - List.length core)) i (Some l).

(** TypeConversions-inl.hh 21-38: index conversion without a length.  A negative index
    i becomes abs(i+1). *)
Definition core_index (i : Z) : nat :=
  if (i <? 0)%Z then Z.to_nat (Z.abs (i + 1)) else Z.to_nat i.

(** Index of a Python list of length n: negative indices count from the end; [None] is
    IndexError. *)
Definition list_index (n : nat) (i : Z) : option nat :=
  if ((0 <=? i) && (i <? Z.of_nat n))%Z%bool then Some (Z.to_nat i)
  else if ((i <? 0) && (- Z.of_nat n <=? i))%Z%bool then Some (Z.to_nat (Z.of_nat n + i))
  else None.

(** _bunch.py 161-164: append. *)
Definition append (b : Bunch) (l : nat) : Bunch :=
  mkBunch (b_hits b ++ [l]) (core_set_item (b_core b) (List.length (b_hits b)) l).

(** _bunch.py 123-126: __setitem__ with an integer (slices are not modelled).  The
    boolean is false if the call raises. *)
Definition setitem (b : Bunch) (i : Z) (l : nat) : Bunch * bool :=
  match list_index (List.length (b_hits b)) i with
  | Some k => (mkBunch (set_nth (b_hits b) k l) (core_set_item (b_core b) (core_index i) l),
               true)
  | None => (b, false)
  end.

(** _bunch.py 128-131: __delitem__ with an integer.  The hit is removed from the list;
    then the method __delitem__ of the Bunchcore is looked up.  PyBunchcore.cc 449-460
    defines del_item but no __delitem__, and the sequence slots 462-471 are empty, so
    the look-up raises AttributeError and the C++ list keeps the hit. *)
Definition delitem (b : Bunch) (i : Z) : Bunch * bool :=
  match list_index (List.length (b_hits b)) i with
  | Some k => (mkBunch (remove_nth (b_hits b) k) (b_core b), false)
  | None => (b, false)
  end.

(** Result of calling the user's comparator: a Python bool, some other object with the
    given truth value, or an exception. *)
Inductive CmpRes := CBool (b : bool) | COther (truth : bool) | CRaise.

Section Bunch.
  Variable N : NumOps.
  Notation World := (World N).
  Notation PyVal := (PyVal N).

  (** Values of variables that are not stored in the hit (derived variables of _hit.py,
      amplitudes of _bunch.py 1253-1267, which depend on the whole bunch).  [None]: the
      call raises. *)
  Variable extra : World -> list nat -> string -> nat -> option PyVal.

  (** _bunch.py 1253-1267: get_hit_variable. *)
  Definition get_hit_variable (w : World) (hits : list nat) (name : string) (l : nat)
    : option PyVal :=
    match hit_get w l name with
    | Some v => Some v
    | None => extra w hits name l
    end.

  Fixpoint all_some {A} (l : list (option A)) : option (list A) :=
    match l with
    | [] => Some []
    | Some x :: r => option_map (cons x) (all_some r)
    | None :: _ => None
    end.

  (** _bunch.py 1276-1302: list_get_hit_variable for one variable, no units. *)
  Definition list_get_hit_variable (w : World) (hits : list nat) (name : string)
    : option (list PyVal) :=
    all_some (map (get_hit_variable w hits name) hits).

  (** Truth value of a comparison in Python code; [None]: the comparator raised. *)
  Definition py_truth (r : CmpRes) : option bool :=
    match r with CBool b => Some b | COther b => Some b | CRaise => None end.

  Variable cmp : PyVal -> N -> CmpRes.

  (** The cut value actually used: the identity, or the scaling by a standard deviation
      if value_is_nsigma_bool is set.  [None]: raises. *)
  Variable scale : World -> Bunch -> string -> N -> option N.

  (** The loop of _bunch.py 634-636: keep the hits for which the comparator is false. *)
  Fixpoint keep_loop (c : N) (hs : list nat) (vs : list PyVal) : option (list nat) :=
    match hs, vs with
    | l :: hs', v :: vs' =>
        match py_truth (cmp v c) with
        | Some t => option_map (fun r => if t then r else l :: r) (keep_loop c hs' vs')
        | None => None
        end
    | _, _ => Some []
    end.

  (** _bunch.py 639-641: a new Bunchcore filled by index. *)
  Fixpoint fill_core (core : list (option nat)) (i : nat) (hs : list nat)
    : list (option nat) :=
    match hs with
    | [] => core
    | l :: r => fill_core (core_set_item core i l) (S i) r
    end.

  (** _bunch.py 613-641: conditional_remove. *)
  Fixpoint conditional_remove (w : World) (b : Bunch) (d : list (string * N))
    : Bunch * bool :=
    match d with
    | [] => (b, true)
    | (name, c0) :: r =>
        match scale w b name c0 with
        | None => (b, false)
        | Some c =>
            match list_get_hit_variable w (b_hits b) name with
            | None => (b, false)
            | Some vs =>
                match keep_loop c (b_hits b) vs with
                | None => (b, false)
                | Some hs => conditional_remove w (mkBunch hs (fill_core [] 0 hs)) r
                end
            end
        end
    end.

  (** ---- split ---- *)

  (** Conversion int(value); truncation for floats. *)
  Variable int_of : PyVal -> Z.

  (** _bunch.py 236-238: one step of the loop on the dict (insertion ordered). *)
  Fixpoint dict_append (d : list (Z * Bunch)) (k : Z) (l : nat) : list (Z * Bunch) :=
    match d with
    | [] => [(k, append bunch_new l)]
    | (k', b) :: r =>
        if Z.eqb k' k then (k', append b l) :: r else (k', b) :: dict_append r k l
    end.

  Fixpoint split_loop (w : World) (name : string) (d : list (Z * Bunch)) (hs all : list nat)
    : option (list (Z * Bunch)) :=
    match hs with
    | [] => Some d
    | l :: r =>
        match get_hit_variable w all name l with
        | Some v => split_loop w name (dict_append d (int_of v) l) r all
        | None => None
        end
    end.

  (** _bunch.py 216-239: split.  hit.check() (234) only reads and prints. *)
  Definition split (w : World) (b : Bunch) (name : string) : option (list (Z * Bunch)) :=
    split_loop w name [] (b_hits b) (b_hits b).

  Fixpoint dict_find (d : list (Z * Bunch)) (k : Z) : option Bunch :=
    match d with
    | [] => None
    | (k', b) :: r => if Z.eqb k' k then Some b else dict_find r k
    end.

  (** _bunch.py 265-273: the sorted list of bunches of new_list_from_read_builtin. *)
  Definition bunch_list (d : list (Z * Bunch)) : list Bunch :=
    flat_map (fun k => match dict_find d k with Some b => [b] | None => [] end)
             (sort Z.ltb (map fst d)).

  (** ---- cut ---- *)

  (** The weight context that C++ code in the extension module _bunchcore sees.  Both
      _hitcore and _bunchcore are linked with their own copy of Hitcore.cc (setup.py
      25-54), so each has its own Hitcore::weightContext (Hitcore.cc 28).  The one of
      _bunchcore is set once, at import, to the initial context (PyBunchcore.cc 529-537,
      569), which is location 0 of [world_init]; Hit.set_weight_context changes the one of
      _hitcore only (PyHitcore.cc 153-172). *)
  Definition core_ctx (w : World) : Context N :=
    match st_heap (w_store w) 0 with Some c => c | None => ctx_new end.

  Definition with_core_ctx (w : World) (c : Context N) : World :=
    mkWorld (w_hits w) (w_next w)
            (mkStore (st_env (w_store w)) (fupd (st_heap (w_store w)) 0 c)
                     (st_next (w_store w)))
            (w_cur w).

  (** Bunchcore.cc 239-246: set the global or the local weight of a hit to 0. *)
  Definition core_zero (w : World) (l : nat) (h : Hit N) (is_global : bool) : World :=
    if is_global
    then with_hit (with_core_ctx w (set_weight (core_ctx w) (weight_id h) n0)) l h
    else with_hit (with_core_ctx w (core_ctx w)) l (hit_set_dbl h Vlocal_weight n0).

  (** Bunchcore.cc 222-252 with PythonComparator.hh 63-75: the comparator must return a
      bool; any other outcome makes cut_double fail at once. *)
  Fixpoint cut_double_loop (w : World) (core : list (option nat)) (k : DblKey) (c : N)
      (is_global : bool) : World * bool :=
    match core with
    | [] => (w, true)
    | None :: r => cut_double_loop w r k c is_global
    | Some l :: r =>
        match w_hits w l with
        | None => cut_double_loop w r k c is_global
        | Some h =>
            match cmp (PFloat (read_dbl (core_ctx w) h k)) c with
            | CBool true => cut_double_loop (core_zero w l h is_global) r k c is_global
            | CBool false => cut_double_loop w r k c is_global
            | _ => (w, false)
            end
        end
    end.

  (** The loop of _bunch.py 842-844. *)
  Fixpoint py_cut_loop (w : World) (hs : list nat) (vs : list PyVal) (c : N)
      (set_var : string) : World * bool :=
    match hs, vs with
    | l :: hs', v :: vs' =>
        match py_truth (cmp v c) with
        | Some true =>
            let (w', ok) := hit_set w l set_var (PInt 0) in
            if ok then py_cut_loop w' hs' vs' c set_var else (w', false)
        | Some false => py_cut_loop w hs' vs' c set_var
        | None => (w, false)
        end
    | _, _ => (w, true)
    end.

  (** _bunch.py 840-844: _cut. *)
  Definition py_cut (w : World) (b : Bunch) (name : string) (c : N) (set_var : string)
    : World * bool :=
    match list_get_hit_variable w (b_hits b) name with
    | Some vs => py_cut_loop w (b_hits b) vs c set_var
    | None => (w, false)
    end.

  (** _bunch.py 835: the test that selects the C++ path: a name listed by
      Hitcore.get_variables() whose value is a float. *)
  Definition core_float_key (name : string) : option DblKey :=
    if existsb (String.eqb name) get_names then assoc get_dbl_map name else None.

  Definition weight_name (is_global : bool) : string :=
    if is_global then "global_weight" else "local_weight".

  (** One round of the loop of _bunch.py 831-838. *)
  Definition cut_one (w : World) (b : Bunch) (name : string) (c : N) (is_global : bool)
    : World * bool :=
    match core_float_key name with
    | Some k => cut_double_loop w (b_core b) k c is_global
    | None => py_cut w b name c (weight_name is_global)
    end.

  (** _bunch.py 814-838: cut. *)
  Fixpoint cut (w : World) (b : Bunch) (d : list (string * N)) (is_global : bool)
    : World * bool :=
    match d with
    | [] => (w, true)
    | (name, c0) :: r =>
        match scale w b name c0 with
        | None => (w, false)
        | Some c =>
            let (w', ok) := cut_one w b name c is_global in
            if ok then cut w' b r is_global else (w', false)
        end
    end.

  (** ---- transmission_cut ---- *)

  Definition num_of (v : PyVal) : N :=
    match v with PFloat x => x | PInt z => nofZ z | POther => n0 end.

  (** hit[var] for each test variable, _bunch.py 866-868, 872. *)
  Definition test_values (w : World) (hits : list nat) (vars : list string) (l : nat)
    : option (list N) :=
    option_map (map num_of) (all_some (map (fun v => get_hit_variable w hits v l) vars)).

  Definition nabs (x : N) : N := if nltb x n0 then nsub n0 x else x.

  (** sum of |a_i - b_i|, _bunch.py 875-876. *)
  Definition distance (a b : list N) : N :=
    fold_left nadd (map (fun p => nabs (nsub (fst p) (snd p))) (combine a b)) n0.

  Definition close (tol : N) (entries : list (list N)) (i : nat) (v : list N) : bool :=
    match nth_error entries i with
    | Some e => nltb (distance e v) tol
    | None => false
    end.

  (** _bunch.py 871-883: the loop over the hits. *)
  Fixpoint transmission_loop (w : World) (all hs : list nat) (vars : list string)
      (entries : list (list N)) (tol : N) (wt : string) : World * bool :=
    match hs with
    | [] => (w, true)
    | l :: r =>
        match test_values w all vars l with
        | None => (w, false)
        | Some v =>
            let i := bisect_left (lex_ltb neqb nltb) entries v in
            let found := close tol entries i v || close tol entries (S i) v in
            let weight := if found then
                            match hit_get w l wt with Some x => x | None => PInt 0 end
                          else PInt 0 in
            let (w', ok) := hit_set w l wt weight in
            if ok then transmission_loop w' all r vars entries tol wt else (w', false)
        end
    end.

  (** _bunch.py 846-883: transmission_cut. *)
  Definition transmission_cut (w : World) (b test : Bunch) (vars : list string) (tol : N)
      (is_global : bool) : World * bool :=
    match all_some (map (test_values w (b_hits test) vars) (b_hits test)) with
    | None => (w, false)
    | Some entries =>
        transmission_loop w (b_hits b) (b_hits b) vars
          (sort (lex_ltb neqb nltb) entries) tol (weight_name is_global)
    end.

  (** _bunch.py 792-797: bunch_weight. *)
  Definition bunch_weight (w : World) (b : Bunch) : N :=
    fold_left (fun s l => match hit_get w l "weight" with
                          | Some v => nadd s (num_of v)
                          | None => s
                          end) (b_hits b) (nofZ 0).

  (** _bunch.py 799-802: clear_local_weights. *)
  Definition clear_local_weights (w : World) (b : Bunch) : World :=
    fold_left (fun w l => fst (hit_set w l "local_weight" (PInt 1))) (b_hits b) w.

  (** _bunch.py 804-812: clear_weights. *)
  Definition bunch_clear_weights (w : World) (b : Bunch) : World :=
    clear_global_weights (clear_local_weights w b).

  (** _bunch.py 584-600: get_hits; [None]: raises. *)
  Fixpoint get_hits_loop (w : World) (all : list nat) (name : string) (c : N) (hs : list nat)
    : option (list nat) :=
    match hs with
    | [] => Some []
    | l :: r =>
        match get_hit_variable w all name l with
        | None => None
        | Some v =>
            match py_truth (cmp v c) with
            | None => None
            | Some true => option_map (cons l) (get_hits_loop w all name c r)
            | Some false => get_hits_loop w all name c r
            end
        end
    end.
  Definition get_hits (w : World) (b : Bunch) (name : string) (c : N) : option (list nat) :=
    get_hits_loop w (b_hits b) name c (b_hits b).

  (** ---- histories of a bunch ---- *)
  Inductive BOp :=
  | BAppend (l : nat)
  | BSet (i : Z) (l : nat)
  | BDel (i : Z)
  | BRemove (w : World) (d : list (string * N)).   (* in the world at that time *)

  Definition bexec (b : Bunch) (op : BOp) : Bunch * bool :=
    match op with
    | BAppend l => (append b l, true)
    | BSet i l => setitem b i l
    | BDel i => delitem b i
    | BRemove w d => conditional_remove w b d
    end.

  Definition brun (p : list BOp) : Bunch :=
    fold_left (fun b op => fst (bexec b op)) p bunch_new.
End Bunch.

Arguments get_hit_variable {N} _ _ _ _ _.
Arguments list_get_hit_variable {N} _ _ _ _.
Arguments conditional_remove {N} _ _ _ _ _ _.
Arguments split {N} _ _ _ _ _.
Arguments core_ctx {N} _.
Arguments with_core_ctx {N} _ _.
Arguments core_zero {N} _ _ _ _.
Arguments cut_double_loop {N} _ _ _ _ _ _.
Arguments py_cut_loop {N} _ _ _ _ _ _.
Arguments py_cut {N} _ _ _ _ _ _ _.
Arguments cut_one {N} _ _ _ _ _ _ _.
Arguments cut {N} _ _ _ _ _ _ _.
Arguments num_of {N} _.
Arguments test_values {N} _ _ _ _ _.
Arguments nabs {N} _.
Arguments distance {N} _ _.
Arguments close {N} _ _ _ _.
Arguments transmission_loop {N} _ _ _ _ _ _ _ _.
Arguments transmission_cut {N} _ _ _ _ _ _ _.
Arguments bunch_weight {N} _ _.
Arguments clear_local_weights {N} _ _.
Arguments bunch_clear_weights {N} _ _.
Arguments get_hits_loop {N} _ _ _ _ _ _ _.
Arguments get_hits {N} _ _ _ _ _ _.
Arguments BAppend {N} _.
Arguments BSet {N} _ _.
Arguments BDel {N} _.
Arguments BRemove {N} _ _.
Arguments bexec {N} _ _ _ _ _.
Arguments brun {N} _ _ _ _.
Arguments keep_loop {N} _ _ _ _.
