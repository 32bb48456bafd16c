(** Model of the calls of WeightContext.get_weight and set_weight and of comparison of weight
    contexts: xboa/core/pylib/PyWeightContext.cc.  Line numbers refer to it. *)
From Coq Require Import ZArith String List Bool.
From Verif Require Import Num WeightModel HitcoreModel.
Import ListNotations.
Open Scope string_scope.
Open Scope list_scope.

Section Call.
  Context {N : NumOps}.
  Notation Val := (PyVal N).

  (** The local variables of 84-85 and 109; [None]: not initialised. *)
  Record Frame := mkFrame { f_weight : option N; f_spill : option Z; f_event : option Z; f_particle : option Z }.
  Definition frame0 : Frame := mkFrame None None None None.

  (** Format units, with the variable they store to. *)
  Inductive Unit := DWeightArg | ISpillArg | IEventArg | IParticleArg.

  (** 'i' of PyArg_Parse: an integer that fits into an int; 'd': what PyFloat_AsDouble takes. *)
  Definition int_arg (v : Val) : option Z :=
    match v with
    | PInt z => if ((-2147483648 <=? z) && (z <? 2147483648))%Z%bool then Some z else None
    | _ => None
    end.
  Definition dbl_arg (v : Val) : option N := let (x, ok) := as_double v in if ok then Some x else None.
  Definition convert (u : Unit) (v : Val) (f : Frame) : option Frame :=
    match u with
    | DWeightArg => option_map (fun x => mkFrame (Some x) (f_spill f) (f_event f) (f_particle f)) (dbl_arg v)
    | ISpillArg => option_map (fun z => mkFrame (f_weight f) (Some z) (f_event f) (f_particle f)) (int_arg v)
    | IEventArg => option_map (fun z => mkFrame (f_weight f) (f_spill f) (Some z) (f_particle f)) (int_arg v)
    | IParticleArg => option_map (fun z => mkFrame (f_weight f) (f_spill f) (f_event f) (Some z)) (int_arg v)
    end.

  (** The loop of PyArg_ParseTupleAndKeywords (CPython, Python/getargs.c, vgetargskeywords) for a
      format whose units are all optional.  [nkw]: keywords not found yet.  Once there are none
      left the first missing argument ends it. *)
  Inductive Parsed := PFail | PDone (f : Frame) | PEnd (us : list Unit) (nkw : nat) (f : Frame).
  Fixpoint parse_loop (us : list Unit) (names : list string) (args : list Val) (kw : list (string * Val)) (nkw : nat)
      (f : Frame) : Parsed :=
    match names with
    | [] => PEnd us nkw f
    | k :: names' =>
        match us with
        | [] => PFail
        | u :: us' =>
            match args with
            | a :: args' =>
                match convert u a f with None => PFail | Some f' => parse_loop us' names' args' kw nkw f' end
            | [] =>
                match nkw with
                | O => PDone f
                | S m =>
                    match assoc kw k with
                    | Some a => match convert u a f with None => PFail | Some f' => parse_loop us' names' [] kw m f' end
                    | None => parse_loop us' names' [] kw nkw f
                    end
                end
            end
        end
    end.
  (** PyArg_ParseTupleAndKeywords; [None]: it raises. *)
  Definition parse (us : list Unit) (names : list string) (args : list Val) (kw : list (string * Val)) : option Frame :=
    if Nat.ltb (List.length names) (List.length args + List.length kw) then None
    else match parse_loop us names args kw (List.length kw) frame0 with
         | PFail => None
         | PDone f => Some f
         | PEnd [] O f => Some f
         | PEnd _ _ _ => None
         end.

  (** 86-89, 110-113: the keywords. *)
  Definition keywords : list string :=
    ["spill"; "event_number"; "particle_number"; "eventNumber"; "particleNumber"].

  (** What a call does: raise KeyError, use a variable that was not initialised (undefined), or
      return. *)
  Inductive Outcome (A : Type) := Raised | Undefined | Returned (a : A).

  (** 103-128: getWeight. *)
  Definition call_get (c : Context N) (args : list Val) (kw : list (string * Val)) : Outcome N :=
    match parse [ISpillArg; IEventArg; IParticleArg; IEventArg; IParticleArg] keywords args kw with
    | None => Raised _
    | Some f =>
        match f_spill f, f_event f, f_particle f with
        | Some s, Some e, Some p => Returned _ (get_weight c (mkHitId s e p))
        | _, _, _ => Undefined _
        end
    end.

  (** 78-101: setWeight; the context afterwards. *)
  Definition call_set (c : Context N) (args : list Val) (kw : list (string * Val)) : Outcome (Context N) :=
    match parse [DWeightArg; ISpillArg; IEventArg; IParticleArg; IEventArg; IParticleArg] keywords args kw with
    | None => Raised _
    | Some f =>
        match f_weight f, f_spill f, f_event f, f_particle f with
        | Some w, Some s, Some e, Some p => Returned _ (set_weight c (mkHitId s e p) w)
        | _, _, _, _ => Undefined _
        end
    end.

  (** 160-168: x == y and x != y, by the address of the C++ object; [None]: an exception (a name that
      is not bound, or NotImplementedError for an operand that is no weight context: [None] in place
      of the variable).  The order of addresses (x < y) is not modelled. *)
  Inductive EqOp := CmpEq | CmpNe.
  Definition rich_compare (s : Store N) (x : nat) (other : option nat) (op : EqOp) : option bool :=
    match other with
    | None => None
    | Some y =>
        match st_env s x, st_env s y with
        | Some a, Some b => Some (match op with CmpEq => Nat.eqb a b | CmpNe => negb (Nat.eqb a b) end)
        | _, _ => None
        end
    end.
End Call.
Arguments Raised {A}.
Arguments Undefined {A}.
Arguments Returned {A} _.
Arguments Frame : clear implicits.
Arguments Parsed : clear implicits.
