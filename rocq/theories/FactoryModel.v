(** Model of the hit factories as objects that share file handles: xboa/hit/factory/_hit_factory_base.py
    ("base"), _line_factory_base.py ("line"), _builtin_hit_factory.py ("builtin"), _user_hit_factory.py
    ("user") and Hit.new_from_read_builtin and new_from_read_user (xboa/hit/_hit.py, "hit").  The reading of
    one line is that of IOModel.

    Simplified: a file handle is the list of the lines not read yet; "gen in" and "gen out", that a
    generator prints, are left out; the other prints are in the log. *)
From Coq Require Import Reals ZArith List Bool String.
From Verif Require Import Num WeightModel HitcoreModel PyLibModel HitPyModel TableModel IOModel.
Import ListNotations.
Open Scope string_scope.
Open Scope list_scope.

(** ---- generators of any factory --------------------------------------------------- *)

(** A generator: not started, or past a yield (base 38 or 43) or ended; both of the latter give
    nothing more. *)
Inductive GState := GStart | GEnd.

(** next(generator): a hit, StopIteration, an exception of the factory, or RuntimeError, which Python
    raises (PEP 479) for a StopIteration raised in a generator (base 45). *)
Inductive GOut (H E : Type) := GHit (h : H) | GStop | GRaise (e : E) | GRuntime.
Arguments GHit {H E}. Arguments GStop {H E}. Arguments GRaise {H E}. Arguments GRuntime {H E}.

Section Generator.
  Variables (S H E : Type) (make : S -> S * (E + H)) (new_spill : S -> S * option E) (caught : E -> bool).

  (** base 35-47: hit_generator.  [caught]: EOFError and BadEventError. *)
  Definition gen_next (g : GState) (s : S) : GState * S * GOut H E :=
    match g with
    | GEnd => (GEnd, s, GStop)
    | GStart =>
        match make s with
        | (s1, inr h) => (GEnd, s1, GHit h)
        | (s1, inl e) =>
            if caught e then
              match new_spill s1 with
              | (s2, Some e') => (GEnd, s2, GRaise e')
              | (s2, None) =>
                  match make s2 with
                  | (s3, inr h) => (GEnd, s3, GHit h)
                  | (s3, inl e') => (GEnd, s3, if caught e' then GRuntime else GRaise e')
                  end
              end
            else (GEnd, s1, GRaise e)
        end
    end.

  (** The first n results of a generator. *)
  Fixpoint gen_take (n : nat) (g : GState) (s : S) : list (GOut H E) :=
    match n with
    | O => []
    | Datatypes.S m => match gen_next g s with (g', s', o) => o :: gen_take m g' s' end
    end.
End Generator.
Arguments gen_next {S H E}.
Arguments gen_take {S H E}.

(** ---- text factories -------------------------------------------------------------- *)

(** The arguments of the constructors, but for the file handle. *)
Inductive Kind :=
  | KBuiltin (fmt : string)
  | KUser (cols : list string) (us : list (string * string)) (ms : string).

(** builtin 24-30, user 27-59: the constructor: [true] if no KeyError. *)
Definition kind_ok (k : Kind) : bool :=
  match k with
  | KBuiltin fmt => is_in fmt (map fst file_formats)
  | KUser cols us _ => user_format_ok cols us
  end.

(** The words of one line made into a hit. *)
Definition read_kind (k : Kind) (c : RCtx) (ts : list Tok) : RRes :=
  match k with
  | KBuiltin fmt => read_hit fmt c ts
  | KUser cols us ms => read_user_hit cols us ms c ts
  end.

(** The exceptions of make_hit. *)
Inductive FErr := FEof | FBad | FErr_ (e : IOErr).
(** base 37 and 44: (EOFError, BadEventError). *)
Definition text_caught (e : FErr) : bool := match e with FErr_ _ => false | _ => true end.

(** What can be seen: a warning for a pid, the result of a make_hit of a factory on a file (also when a
    generator calls it), the result of a next(generator), KeyError of a constructor. *)
Inductive Seen :=
  | SWarn (pid : Z)
  | SRead (file : nat) (k : Kind) (r : FErr + RHit)
  | SNext (g : nat) (o : GOut RHit FErr)
  | SKeyError (k : Kind).

(** The files by number, the factories with their files, the generators with their factories,
    HitFactoryBase.bad_pids, and the log. *)
Record FWorld := mkFW { fw_files : list (list Line); fw_facs : list (Kind * nat);
  fw_gens : list (nat * GState); fw_bad : list Z; fw_log : list Seen }.
Definition fw_new : FWorld := mkFW [] [] [] [] [].

Definition set_nth {A} (n : nat) (x : A) (l : list A) : list A := firstn n l ++ x :: skipn (S n) l.

(** builtin 52-55 and 60-62: the warning and the list of pids. *)
Definition warn (pid : Z) (w : FWorld) : FWorld :=
  if existsb (Z.eqb pid) (fw_bad w) then w
  else mkFW (fw_files w) (fw_facs w) (fw_gens w) (fw_bad w ++ [pid]) (fw_log w ++ [SWarn pid]).

(** builtin 46-62: the warnings for a hit; no mass, then no charge. *)
Definition warnings (k : Kind) (h : RHit) (w : FWorld) : FWorld :=
  match k with
  | KUser _ _ _ => w
  | KBuiltin fmt =>
      let w1 := match zassoc pdg_pid_to_mass (Z.abs (pid_of h)) with Some _ => w | None => warn (pid_of h) w end in
      if is_in "charge" (match assoc file_formats fmt with Some cols => cols | None => [] end) then w1
      else match zassoc pdg_pid_to_charge (pid_of h) with Some _ => w1 | None => warn (pid_of h) w1 end
  end.

(** line 43-70, builtin 32-63, user 61-74: make_hit of a factory of kind k on a file. *)
Definition make (c : RCtx) (k : Kind) (f : nat) (w : FWorld) : FWorld * (FErr + RHit) :=
  let put w r := (mkFW (fw_files w) (fw_facs w) (fw_gens w) (fw_bad w) (fw_log w ++ [SRead f k r]), r) in
  match nth f (fw_files w) [] with
  | [] => put w (inl FEof)
  | l :: r =>
      let w1 := mkFW (set_nth f r (fw_files w)) (fw_facs w) (fw_gens w) (fw_bad w) (fw_log w) in
      match read_kind k c (tokens l) with
      | RBad => put w1 (inl FBad)
      | RRaise e => put w1 (inl (FErr_ e))
      | RHitOk h => put (warnings k h w1) (inr h)
      end
  end.

(** base 49-56: new_spill does nothing. *)
Definition no_spill (w : FWorld) : FWorld * option FErr := (w, None).

(** A program: open a file; make a factory; call make_hit of factory i; make a generator of factory i;
    next of generator g; Hit.new_from_read_builtin or new_from_read_user on a file (hit 155-189). *)
Inductive FOp :=
  | OOpen (ls : list Line)
  | OFactory (k : Kind) (f : nat)
  | OMake (i : nat)
  | OGen (i : nat)
  | ONext (g : nat)
  | OHit (k : Kind) (f : nat).

Definition key_error (k : Kind) (w : FWorld) : FWorld :=
  mkFW (fw_files w) (fw_facs w) (fw_gens w) (fw_bad w) (fw_log w ++ [SKeyError k]).

(** A call with a number of a file, factory or generator that does not exist is left out. *)
Definition fstep (c : RCtx) (w : FWorld) (o : FOp) : FWorld :=
  match o with
  | OOpen ls => mkFW (fw_files w ++ [ls]) (fw_facs w) (fw_gens w) (fw_bad w) (fw_log w)
  | OFactory k f =>
      if negb (Nat.ltb f (List.length (fw_files w))) then w
      else if kind_ok k then mkFW (fw_files w) (fw_facs w ++ [(k, f)]) (fw_gens w) (fw_bad w) (fw_log w)
      else key_error k w
  | OMake i =>
      match nth_error (fw_facs w) i with
      | Some (k, f) => fst (make c k f w)
      | None => w
      end
  | OGen i =>
      match nth_error (fw_facs w) i with
      | Some _ => mkFW (fw_files w) (fw_facs w) (fw_gens w ++ [(i, GStart)]) (fw_bad w) (fw_log w)
      | None => w
      end
  | ONext g =>
      match nth_error (fw_gens w) g with
      | Some (i, s) =>
          match nth_error (fw_facs w) i with
          | Some (k, f) =>
              match gen_next (make c k f) no_spill text_caught s w with
              | (s', w', o) => mkFW (fw_files w') (fw_facs w') (set_nth g (i, s') (fw_gens w')) (fw_bad w') (fw_log w' ++ [SNext g o])
              end
          | None => w
          end
      | None => w
      end
  | OHit k f =>
      if negb (Nat.ltb f (List.length (fw_files w))) then w
      else if kind_ok k then fst (make c k f w) else key_error k w
  end.
Definition frun (c : RCtx) (p : list FOp) : FWorld := fold_left (fstep c) p fw_new.
