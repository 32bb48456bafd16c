(** Model of the C++ hit storage, its Python binding and the global weights.
    Source: xboa/core/cpplib/Hitcore.{hh,cc}, xboa/core/pylib/PyHitcore.cc,
    xboa/hit/_hit.py (class Hit: storage, copying, pickling). *)
From Coq Require Import ZArith List Bool String.
From Verif Require Import Num WeightModel.
Import ListNotations.
Open Scope string_scope.

(** Hitcore.hh data members of type double. *)
Inductive DblVar :=
| Vx | Vy | Vz | Vt | Vpx | Vpy | Vpz | Venergy
| Vbx | Vby | Vbz | Vex | Vey | Vez | Vsx | Vsy | Vsz
| Vpath_length | Vproper_time | Ve_dep | Vcharge | Vmass | Vlocal_weight.

(** Hitcore.hh data members of type int. *)
Inductive IntVar := Ispill | Ievent | Iparticle | Istation | Istatus | Ipid.

Definition dblvar_eq_dec : forall a b : DblVar, {a = b} + {a <> b}.
Proof. decide equality. Defined.
Definition intvar_eq_dec : forall a b : IntVar, {a = b} + {a <> b}.
Proof. decide equality. Defined.

(** What an accessor of type double reads: a member, the weight context, or the
    product (Hitcore.cc 82-84). *)
Inductive DblKey := DStored (v : DblVar) | DGlobalWeight | DWeight.

(** Hitcore.cc 54-84: get_dbl_map. *)
Definition get_dbl_map : list (string * DblKey) :=
  [ ("x", DStored Vx); ("y", DStored Vy); ("z", DStored Vz); ("t", DStored Vt);
    ("px", DStored Vpx); ("py", DStored Vpy); ("pz", DStored Vpz);
    ("energy", DStored Venergy);
    ("bx", DStored Vbx); ("by", DStored Vby); ("bz", DStored Vbz);
    ("ex", DStored Vex); ("ey", DStored Vey); ("ez", DStored Vez);
    ("sx", DStored Vsx); ("sy", DStored Vsy); ("sz", DStored Vsz);
    ("path_length", DStored Vpath_length); ("proper_time", DStored Vproper_time);
    ("e_dep", DStored Ve_dep); ("charge", DStored Vcharge); ("mass", DStored Vmass);
    ("local_weight", DStored Vlocal_weight); ("global_weight", DGlobalWeight);
    ("weight", DWeight) ].

(** Hitcore.cc 45-52: get_int_map. *)
Definition get_int_map : list (string * IntVar) :=
  [ ("spill", Ispill); ("event_number", Ievent); ("eventNumber", Ievent);
    ("particle_number", Iparticle); ("particleNumber", Iparticle);
    ("station", Istation); ("status", Istatus); ("pid", Ipid) ].

(** Hitcore.cc 97-126: set_dbl_map ("weight" cannot be set).  Listed in the order of
    std::map iteration, i.e. alphabetical, because set_names() (160-183) iterates
    over it. *)
Definition set_dbl_map : list (string * DblKey) :=
  [ ("bx", DStored Vbx); ("by", DStored Vby); ("bz", DStored Vbz);
    ("charge", DStored Vcharge); ("e_dep", DStored Ve_dep);
    ("energy", DStored Venergy);
    ("ex", DStored Vex); ("ey", DStored Vey); ("ez", DStored Vez);
    ("global_weight", DGlobalWeight); ("local_weight", DStored Vlocal_weight);
    ("mass", DStored Vmass); ("path_length", DStored Vpath_length);
    ("proper_time", DStored Vproper_time);
    ("px", DStored Vpx); ("py", DStored Vpy); ("pz", DStored Vpz);
    ("sx", DStored Vsx); ("sy", DStored Vsy); ("sz", DStored Vsz);
    ("t", DStored Vt); ("x", DStored Vx); ("y", DStored Vy); ("z", DStored Vz) ].

(** Hitcore.cc 88-95: set_int_map, in std::map order (upper case sorts first). *)
Definition set_int_map : list (string * IntVar) :=
  [ ("eventNumber", Ievent); ("event_number", Ievent);
    ("particleNumber", Iparticle); ("particle_number", Iparticle);
    ("pid", Ipid); ("spill", Ispill); ("station", Istation); ("status", Istatus) ].

(** Hitcore.cc 129-158: get_names(), doubles then ints. *)
Definition get_names : list string :=
  [ "x"; "y"; "z"; "t"; "px"; "py"; "pz"; "energy";
    "bx"; "by"; "bz"; "ex"; "ey"; "ez"; "sx"; "sy"; "sz";
    "path_length"; "proper_time"; "e_dep"; "charge"; "mass";
    "local_weight"; "global_weight";
    "spill"; "event_number"; "particle_number"; "station"; "status"; "pid" ].

(** Hitcore.cc 178-183: set_names(), doubles then ints. *)
Definition set_names : list string := map fst set_dbl_map ++ map fst set_int_map.

(** std::map::find on string keys. *)
Fixpoint assoc {A} (m : list (string * A)) (k : string) : option A :=
  match m with
  | [] => None
  | (k', v) :: r => if String.eqb k' k then Some v else assoc r k
  end.

(** C++ conversion long -> int (PyHitcore.cc 107): two's complement truncation to
    32 bits. *)
Definition wrap32 (z : Z) : Z := ((z + 2147483648) mod 4294967296 - 2147483648)%Z.

(** PyLong_AsLong succeeds on 64 bit values. *)
Definition in_long (z : Z) : bool :=
  (Z.leb (-9223372036854775808) z && Z.leb z 9223372036854775807)%bool.

Section Hit.
  Variable N : NumOps.

  (** Python values seen by Hit.set and Hit.get: floats, ints, and everything else
      (None, strings, complex numbers, ...), for which PyFloat_AsDouble fails. *)
  Inductive PyVal := PFloat (n : N) | PInt (z : Z) | POther.

  (** Hitcore.hh: the data members. *)
  Record Hit := mkHit { h_dbl : DblVar -> N; h_int : IntVar -> Z }.

  (** Hitcore.cc 35-42: the constructor. *)
  Definition hit_new : Hit :=
    mkHit (fun v => match v with Vlocal_weight => n1 | _ => n0 end) (fun _ => 0%Z).

  Definition hit_set_dbl (h : Hit) (v : DblVar) (x : N) : Hit :=
    mkHit (fun v' => if dblvar_eq_dec v v' then x else h_dbl h v') (h_int h).

  Definition hit_set_int (h : Hit) (v : IntVar) (z : Z) : Hit :=
    mkHit (h_dbl h) (fun v' => if intvar_eq_dec v v' then z else h_int h v').

  (** Hitcore.hh 438-447: the id a hit uses for its global weight.  The constructor
      takes (spill, event, particle); the code passes (spill_, particle_, event_). *)
  Definition weight_id (h : Hit) : HitId :=
    mkHitId (h_int h Ispill) (h_int h Iparticle) (h_int h Ievent).

  (** Hitcore.hh 443-447: global_weight. *)
  Definition global_weight (c : Context N) (h : Hit) : N := get_weight c (weight_id h).

  (** The accessors behind get_dbl_map; total_weight is local * global. *)
  Definition read_dbl (c : Context N) (h : Hit) (k : DblKey) : N :=
    match k with
    | DStored v => h_dbl h v
    | DGlobalWeight => global_weight c h
    | DWeight => nmul (h_dbl h Vlocal_weight) (global_weight c h)
    end.

  (** PyHitcore.cc 45-71: Hitcore.get.  [None] is KeyError. *)
  Definition core_get (c : Context N) (h : Hit) (name : string) : option PyVal :=
    match assoc get_dbl_map name with
    | Some k => Some (PFloat (read_dbl c h k))
    | None =>
        match assoc get_int_map name with
        | Some v => Some (PInt (h_int h v))
        | None => None
        end
    end.

  (** PyFloat_AsDouble (PyHitcore.cc 103): value and error indicator.  On failure the
      value is -1.0. *)
  Definition as_double (v : PyVal) : N * bool :=
    match v with
    | PFloat x => (x, true)
    | PInt z => (nofZ z, true)
    | POther => (nofZ (-1)%Z, false)
    end.

  (** PyLong_AsLong then conversion to int (PyHitcore.cc 107), CPython >= 3.10: floats
      are rejected with value -1. *)
  Definition as_int (v : PyVal) : Z * bool :=
    match v with
    | PInt z => if in_long z then (wrap32 z, true) else ((-1)%Z, false)
    | PFloat _ => ((-1)%Z, false)
    | POther => ((-1)%Z, false)
    end.

  (** PyHitcore.cc 87-113: Hitcore.set.  The conversion is not checked before the value
      is stored; a pending conversion error makes the call raise afterwards.  Result:
      hit, context and whether the call returned normally. *)
  Definition core_set (c : Context N) (h : Hit) (name : string) (v : PyVal)
    : Hit * Context N * bool :=
    match assoc set_dbl_map name with
    | Some (DStored d) =>
        let (x, ok) := as_double v in (hit_set_dbl h d x, c, ok)
    | Some DGlobalWeight =>
        let (x, ok) := as_double v in (h, set_weight c (weight_id h) x, ok)
    | Some DWeight => (h, c, false)
    | None =>
        match assoc set_int_map name with
        | Some i =>
            (* PyFloat_AsDouble has already run (103); its error stays pending *)
            let ok1 := snd (as_double v) in
            let (z, ok2) := as_int v in (hit_set_int h i z, c, (ok1 && ok2)%bool)
        | None => (h, c, false)
        end
    end.

  (** ---- Hits as Python objects, with the current weight context ---------------- *)

  (** Process state: hit objects by location, weight context objects (held by
      variables as in WeightModel), and the location of the current context
      (Hitcore::weightContext, Hitcore.cc 28). *)
  Record World := mkWorld {
    w_hits : nat -> option Hit;
    w_next : nat;
    w_store : Store N;
    w_cur : nat
  }.

  (** State after importing the module: one default context, no hits. *)
  Definition world_init : World :=
    mkWorld (fun _ => None) 0
            (mkStore (fun _ => None) (fupd (fun _ => None) 0 ctx_new) 1) 0.

  (** The current context (it always exists; the default is never used on states
      reached from [world_init]). *)
  Definition cur_ctx (w : World) : Context N :=
    match st_heap (w_store w) (w_cur w) with Some c => c | None => ctx_new end.

  Definition with_cur (w : World) (c : Context N) : World :=
    mkWorld (w_hits w) (w_next w)
            (mkStore (st_env (w_store w)) (fupd (st_heap (w_store w)) (w_cur w) c)
                     (st_next (w_store w)))
            (w_cur w).

  Definition with_hit (w : World) (l : nat) (h : Hit) : World :=
    mkWorld (fupd (w_hits w) l h) (w_next w) (w_store w) (w_cur w).

  (** _hit.py 336-349: Hit.get on stored variables and weights (derived variables are
      in HitDerivedModel). *)
  Definition hit_get (w : World) (l : nat) (name : string) : option PyVal :=
    match w_hits w l with
    | Some h => core_get (cur_ctx w) h name
    | None => None
    end.

  (** _hit.py 351-365: Hit.set on a name that is not a derived variable.  An exception
      of the core is swallowed and IndexError is raised instead: boolean [false]. *)
  Definition hit_set (w : World) (l : nat) (name : string) (v : PyVal) : World * bool :=
    match w_hits w l with
    | None => (w, false)
    | Some h =>
        let '(h', c', ok) := core_set (cur_ctx w) h name v in
        (with_hit (with_cur w c') l h', ok)
    end.

  (** _hit.py 96-98: Hit(). *)
  Definition hit_alloc (w : World) : World * nat :=
    (mkWorld (fupd (w_hits w) (w_next w) hit_new) (S (w_next w)) (w_store w) (w_cur w),
     w_next w).

  (** _hit.py 381-388: dict_from_hit, in insertion order. *)
  Definition dict_from_hit (w : World) (l : nat) : list (string * PyVal) :=
    flat_map (fun k => match hit_get w l k with Some v => [(k, v)] | None => [] end)
             set_names.

  (** The loop of _hit.py 148-149 (new_from_dict) and 713-714 (__setstate__); stops at
      the first exception. *)
  Fixpoint set_all (w : World) (l : nat) (d : list (string * PyVal)) : World * bool :=
    match d with
    | [] => (w, true)
    | (k, v) :: r =>
        let (w', ok) := hit_set w l k v in
        if ok then set_all w' l r else (w', false)
    end.

  (** _hit.py 138-153: new_from_dict with mass_shell_string ''. *)
  Definition new_from_dict (w : World) (d : list (string * PyVal)) : World * nat * bool :=
    let (w1, l) := hit_alloc w in
    let (w2, ok) := set_all w1 l d in (w2, l, ok).

  (** _hit.py 109-112, 227-231: deepcopy. *)
  Definition deepcopy (w : World) (l : nat) : World * nat * bool :=
    new_from_dict w (dict_from_hit w l).

  (** _hit.py 698-714: pickling and unpickling in the same process. *)
  Definition pickle_roundtrip (w : World) (l : nat) : World * nat * bool :=
    let state := dict_from_hit w l in
    let (w1, l') := hit_alloc w in
    let (w2, ok) := set_all w1 l' state in (w2, l', ok).

  (** PyHitcore.cc 129-132, Hitcore.cc 31-33: clear_global_weights. *)
  Definition clear_global_weights (w : World) : World :=
    with_cur w (clear_weights (cur_ctx w)).

  (** Everything a program can do with hits and weight contexts. *)
  Inductive WOp :=
  | WNew                                             (* Hit() *)
  | WSet (l : nat) (name : string) (v : PyVal)       (* hit[name] = v *)
  | WCopy (l : nat)                                  (* hit.deepcopy() *)
  | WPickle (l : nat)                                (* loads(dumps(hit)) *)
  | WFromDict (d : list (string * PyVal))            (* Hit.new_from_dict(d) *)
  | WClear                                           (* Hit.clear_global_weights() *)
  | WCtx (s : Stmt N)                                (* weight context statement *)
  | WUse (x : nat)                                   (* Hit.set_weight_context(x) *)
  | WCurrent (x : nat).                              (* x = Hit.get_weight_context() *)

  Definition wexec (w : World) (op : WOp) : World :=
    match op with
    | WNew => fst (hit_alloc w)
    | WSet l name v => fst (hit_set w l name v)
    | WCopy l =>
        match w_hits w l with
        | Some _ => fst (fst (deepcopy w l))
        | None => w
        end
    | WPickle l =>
        match w_hits w l with
        | Some _ => fst (fst (pickle_roundtrip w l))
        | None => w
        end
    | WFromDict d => fst (fst (new_from_dict w d))
    | WClear => clear_global_weights w
    | WCtx s =>
        match exec (w_store w) s with
        | Some st => mkWorld (w_hits w) (w_next w) st (w_cur w)
        | None => w
        end
    | WUse x =>                                      (* PyHitcore.cc 153-172 *)
        match st_env (w_store w) x with
        | Some l => mkWorld (w_hits w) (w_next w) (w_store w) l
        | None => w
        end
    | WCurrent x =>                                  (* PyHitcore.cc 174-179 *)
        mkWorld (w_hits w) (w_next w)
                (mkStore (fupd (st_env (w_store w)) x (w_cur w))
                         (st_heap (w_store w)) (st_next (w_store w)))
                (w_cur w)
    end.

  Definition wrun (p : list WOp) : World := fold_left wexec p world_init.

End Hit.

Arguments PFloat {N} _.
Arguments PInt {N} _.
Arguments POther {N}.
Arguments mkHit {N} _ _.
Arguments h_dbl {N} _ _.
Arguments h_int {N} _ _.
Arguments hit_new {N}.
Arguments hit_set_dbl {N} _ _ _.
Arguments hit_set_int {N} _ _ _.
Arguments weight_id {N} _.
Arguments global_weight {N} _ _.
Arguments read_dbl {N} _ _ _.
Arguments core_get {N} _ _ _.
Arguments as_double {N} _.
Arguments as_int {N} _.
Arguments core_set {N} _ _ _ _.
Arguments mkWorld {N} _ _ _ _.
Arguments w_hits {N} _ _.
Arguments w_next {N} _.
Arguments w_store {N} _.
Arguments w_cur {N} _.
Arguments world_init {N}.
Arguments cur_ctx {N} _.
Arguments with_cur {N} _ _.
Arguments with_hit {N} _ _ _.
Arguments hit_get {N} _ _ _.
Arguments hit_set {N} _ _ _ _.
Arguments hit_alloc {N} _.
Arguments dict_from_hit {N} _ _.
Arguments set_all {N} _ _ _.
Arguments new_from_dict {N} _ _.
Arguments deepcopy {N} _ _.
Arguments pickle_roundtrip {N} _ _.
Arguments clear_global_weights {N} _.
Arguments WNew {N}.
Arguments WSet {N} _ _ _.
Arguments WCopy {N} _.
Arguments WPickle {N} _.
Arguments WFromDict {N} _.
Arguments WClear {N}.
Arguments WCtx {N} _.
Arguments WUse {N} _.
Arguments WCurrent {N} _.
Arguments wexec {N} _ _.
Arguments wrun {N} _.
