(** Model of xboa/tracking/_maus_tracking.py: MAUSTracking.  Line numbers refer to it.

    Simplified: json.dumps and json.loads are exact inverses, so that texts are the documents
    they hold.  The simulation is a function of the cards of the running MAUS and of the
    primaries; it may raise an exception.  MAUS is installed (config.has_maus). *)
From Coq Require Import Reals ZArith List Bool String.
From Verif Require Import Num HitcoreModel PyLibModel HitPyModel TableModel IOModel CommonModel MausModel.
Import ListNotations.
Open Scope list_scope.
Open Scope string_scope.

(** maus_cpp.simulation.track_particles; the first argument is what MAUS was born with. *)
Definition Simulation : Type := option Json -> Json -> MErr + Json.

(** The attributes of lines 59-62. *)
Record Tracker := mkTracker { tr_cards : option Json; tr_seed : Z; tr_spill : Z; tr_last : list (list RHit) }.

(** 40-62: __init__; the first part of the result is the MAUS that runs then.  A dict, a list
    and the text of either are the same document. *)
Definition tracker_new (running : option Json) (cards : option Json) (seed : Z) : option Json * Tracker :=
  (match cards with Some d => Some d | None => running end, mkTracker cards seed 0 []).

(** j[k] *)
Definition jget (j : Json) (k : string) : MErr + Json :=
  match j with
  | JDict d => match assoc d k with Some v => inr v | None => inl MKey end
  | _ => inl MType
  end.
Definition jget2 (j : Json) (k k' : string) : MErr + Json :=
  match jget j k with inl e => inl e | inr v => jget v k' end.

(** common.pdg_pid_to_mass[abs(pid)], common.pdg_pid_to_charge[pid]: KeyError if there is no entry. *)
Definition mass_entry (v : RVal) : MErr + RVal :=
  match v with
  | PInt z => match zassoc pdg_pid_to_mass (Z.abs z) with Some m => inr (PFloat (m : RNum)) | None => inl MKey end
  | PFloat _ => inl MKey
  | POther => inl MType
  end.
Definition charge_entry (v : RVal) : MErr + RVal :=
  match v with
  | PInt z => match zassoc pdg_pid_to_charge z with Some q => inr (PInt q) | None => inl MKey end
  | _ => inl MKey
  end.

(** hit[k] = value, one after the other; the values are those of json objects. *)
Definition num_of (r : MErr + Json) : MErr + RVal :=
  match r with inl e => inl e | inr j => inr (to_val j) end.
Fixpoint set_each (s : PSt) (d : list (string * (MErr + RVal))) : MErr + RHit :=
  match d with
  | [] => inr (fst s)
  | (k, inl e) :: _ => inl e
  | (k, inr v) :: r =>
      match py_set s k v with
      | (s', None) => set_each s' r
      | (_, Some e) => inl (err_of e)
      end
  end.
Definition vectors (j : Json) : list (string * (MErr + RVal)) :=
  flat_map (fun k => [(k, num_of (jget2 j "position" k)); ("p" ++ k, num_of (jget2 j "momentum" k))])
           ["x"; "y"; "z"].

(** 113-134: _virtual_hit_to_xboa_hit. *)
Definition virtual_to_hit (c : RCtx) (spill event : Z) (j : Json) : MErr + RHit :=
  match jget j "particle_id" with
  | inl e => inl e
  | inr p =>
      match set_each (hit_new, c)
              (vectors j ++
               [("pid", inr (to_val p)); ("t", num_of (jget j "time")); ("mass", mass_entry (to_val p));
                ("charge", charge_entry (to_val p)); ("particle_number", num_of (jget j "track_id"));
                ("event_number", inr (PInt event)); ("spill", inr (PInt spill));
                ("station", num_of (jget j "station_id"))])%list with
      | inl e => inl e
      | inr h =>
          let (h', r) := mass_shell h "energy" in
          match ms_err r with Some e => inl (err_of e) | None => inr h' end
      end
  end.

(** 136-154: _primary_to_xboa_hit. *)
Definition primary_to_hit (c : RCtx) (spill event particle : Z) (j : Json) : MErr + RHit :=
  match jget j "particle_id" with
  | inl e => inl e
  | inr p =>
      set_each (hit_new, c)
        (vectors j ++
         [("pid", inr (to_val p)); ("energy", num_of (jget j "energy")); ("t", num_of (jget j "time"));
          ("mass", mass_entry (to_val p)); ("charge", charge_entry (to_val p));
          ("particle_number", inr (PInt particle)); ("event_number", inr (PInt event));
          ("spill", inr (PInt spill)); ("station", inr (PInt (-1)))])%list
  end.

(** 102-111: _mc_event_to_hit_list.  Iteration over anything but a list is taken for a TypeError. *)
Definition event_to_hits (c : RCtx) (spill event : Z) (j : Json) : MErr + list RHit :=
  match jget j "primary" with
  | inl e => inl e
  | inr p =>
      match primary_to_hit c spill event 1 p with
      | inl e => inl e
      | inr h =>
          match jget j "virtual_hits" with
          | inl _ => inr [h]
          | inr (JList vs) =>
              match all_or (map (virtual_to_hit c spill event) vs) with
              | inl e => inl e
              | inr hs => inr (h :: hs)
              end
          | inr _ => inl MType
          end
      end
  end.

(** 156-171: _hit_to_primary, the document; the seed is then increased. *)
Definition hit_to_primary (c : RCtx) (seed : Z) (h : RHit) : Json :=
  JDict [("primary",
    JDict [("position", JDict [("x", get_num c h "x"); ("y", get_num c h "y"); ("z", get_num c h "z")]);
           ("momentum", JDict [("x", get_num c h "px"); ("y", get_num c h "py"); ("z", get_num c h "pz")]);
           ("particle_id", get_num c h "pid"); ("energy", get_num c h "energy");
           ("time", get_num c h "t"); ("random_seed", JNum (PInt seed))])].
Fixpoint to_primaries (c : RCtx) (seed : Z) (hits : list RHit) : Z * list Json :=
  match hits with
  | [] => (seed, [])
  | h :: r => let (s', js) := to_primaries c (seed + 1)%Z r in (s', hit_to_primary c seed h :: js)
  end.

Fixpoint enumerate_events (c : RCtx) (spill event : Z) (evs : list Json) : MErr + list (list RHit) :=
  match evs with
  | [] => inr []
  | e :: r =>
      match event_to_hits c spill event e with
      | inl err => inl err
      | inr hs => match enumerate_events c spill (event + 1)%Z r with
                  | inl err => inl err
                  | inr l => inr (hs :: l)
                  end
      end
  end.

(** 79-100: track_many: the tracker after the call, what the simulation was given, and the result. *)
Definition track_many (sim : Simulation) (running : option Json) (c : RCtx) (t : Tracker) (hits : list RHit)
  : Tracker * Json * (MErr + list (list RHit)) :=
  let (seed', js) := to_primaries c (tr_seed t) hits in
  let doc := JList js in
  let failed := mkTracker (tr_cards t) seed' (tr_spill t) (tr_last t) in
  match sim running doc with
  | inl e => (failed, doc, inl e)
  | inr (JList evs) =>
      match enumerate_events c (tr_spill t) 0 evs with
      | inl e => (failed, doc, inl e)
      | inr l => (mkTracker (tr_cards t) seed' (tr_spill t + 1)%Z l, doc, inr l)
      end
  | inr _ => (failed, doc, inl MType)
  end.

(** 64-76: track_one. *)
Definition track_one (sim : Simulation) (running : option Json) (c : RCtx) (t : Tracker) (h : RHit)
  : Tracker * Json * (MErr + list RHit) :=
  let '(t', doc, r) := track_many sim running c t [h] in
  (t', doc, match r with
            | inl e => inl e
            | inr [] => inl MIndex
            | inr (l :: _) => inr l
            end).

(** 173-191: __getstate__ and __setstate__, the hits of [last] being pickled exactly (C08). *)
Definition tracker_copy (running : option Json) (t : Tracker) : option Json * Tracker :=
  let (run, t') := tracker_new running (tr_cards t) (tr_seed t) in
  (run, mkTracker (tr_cards t') (tr_seed t') (tr_spill t) (tr_last t)).

(** Programs: several trackers in one process.  A call that raises an exception leaves the
    program running. *)
Inductive TOp :=
| TNew (cards : option Json) (seed : Z)
| TMany (i : nat) (hits : list RHit)
| TOne (i : nat) (h : RHit)
| TCopy (i : nat).

(** What a caller and the simulation see of a call. *)
Record Call := mkCall { ca_tracker : nat; ca_running : option Json; ca_given : Json;
                        ca_result : MErr + list (list RHit) }.
Record TWorld := mkTWorld { tw_running : option Json; tw_trackers : list Tracker; tw_calls : list Call }.

Definition texec (sim : Simulation) (c : RCtx) (w : TWorld) (op : TOp) : TWorld :=
  match op with
  | TNew cards seed =>
      let (run, t) := tracker_new (tw_running w) cards seed in
      mkTWorld run (tw_trackers w ++ [t]) (tw_calls w)
  | TMany i hits =>
      match nth_error (tw_trackers w) i with
      | None => w
      | Some t =>
          let '(t', doc, r) := track_many sim (tw_running w) c t hits in
          mkTWorld (tw_running w) (set_nth (tw_trackers w) i t')
                   (tw_calls w ++ [mkCall i (tw_running w) doc r])
      end
  | TOne i h =>
      match nth_error (tw_trackers w) i with
      | None => w
      | Some t =>
          let '(t', doc, r) := track_one sim (tw_running w) c t h in
          mkTWorld (tw_running w) (set_nth (tw_trackers w) i t')
                   (tw_calls w ++ [mkCall i (tw_running w) doc (match r with inl e => inl e | inr l => inr [l] end)])
      end
  | TCopy i =>
      match nth_error (tw_trackers w) i with
      | None => w
      | Some t =>
          let (run, t') := tracker_copy (tw_running w) t in
          mkTWorld run (tw_trackers w ++ [t']) (tw_calls w)
      end
  end.
Definition trun (sim : Simulation) (c : RCtx) (p : list TOp) : TWorld :=
  fold_left (texec sim c) p (mkTWorld None [] []).
