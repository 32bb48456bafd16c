(** Model of reading MAUS ROOT files: xboa/hit/factory/_maus_root_hit_factory.py ("hit"),
    xboa/hit/factory/_maus_root_recon_hit_factory.py ("recon") and Bunch.read_maus_root_file,
    Bunch.new_from_read_builtin of xboa/bunch/_bunch.py.

    Simplified: a tree is the list of its spills, decoded; records are what their getters return.
    AttributeError (_bunch.py 435-437) does not arise for decoded records. *)
From Coq Require Import Reals ZArith String List Bool.
From Verif Require Import Num HitcoreModel PyLibModel HitPyModel TableModel IOModel CommonModel MausModel.
Import ListNotations.
Open Scope list_scope.
Open Scope string_scope.

(** The getters of MAUS::VirtualHit, MAUS::Step, MAUS::Track. *)
Record VirtualHit := mkVirtual {
  vh_pos : R * R * R; vh_mom : R * R * R; vh_b : R * R * R; vh_e : R * R * R;
  vh_pid : Z; vh_station : Z; vh_track : Z;
  vh_time : R; vh_mass : R; vh_charge : R; vh_proper_time : R; vh_path_length : R }.
Record Step := mkStep {
  st_pos : R * R * R; st_time : R; st_mom : R * R * R; st_b : R * R * R; st_e : R * R * R; st_spin : R * R * R;
  st_proper_time : R; st_path_length : R }.
Record McTrack := mkMcTrack { mt_pid : Z; mt_id : Z; mt_steps : list Step }.
Record McEvent := mkMcEvent { mc_virtuals : list VirtualHit; mc_tracks : list McTrack; mc_primary : Primary }.

(** The times of MAUS::TOFEvent: space points, slab hits and digits in TOF0 and TOF1. *)
Record TofEvent := mkTof {
  tof0_points : list R; tof1_points : list R; tof0_slabs : list R; tof1_slabs : list R;
  tof0_digits : list R; tof1_digits : list R }.
Record ReconEvent := mkRecon { re_tracks : list Track; re_tof : TofEvent }.

Record RootSpill := mkSpill { rs_number : Z; rs_mc : list McEvent; rs_recon : list ReconEvent }.

(** enumerate *)
Fixpoint enumerate {A} (i : Z) (l : list A) : list (Z * A) :=
  match l with [] => [] | a :: r => (i, a) :: enumerate (i + 1)%Z r end.

(** hit 82-112: one virtual hit. *)
Definition root_virtual (c : RCtx) (spill event : Z) (v : VirtualHit) : MErr + RHit :=
  hit_from_dict c
    (vec3 "" (vh_pos v) ++ vec3 "p" (vh_mom v) ++ vec3 "b" (vh_b v) ++ vec3 "e" (vh_e v) ++
     [("pid", PInt (vh_pid v)); ("station", PInt (vh_station v)); ("particle_number", PInt (vh_track v));
      ("t", fl (vh_time v)); ("mass", fl (vh_mass v)); ("charge", fl (vh_charge v));
      ("proper_time", fl (vh_proper_time v)); ("path_length", fl (vh_path_length v));
      ("spill", PInt spill); ("event_number", PInt event)])%list "energy".

(** hit 114-147: one step; a particle number that is not in the tables is a KeyError. *)
Definition root_step (c : RCtx) (spill event : Z) (t : McTrack) (index : Z) (s : Step) : MErr + RHit :=
  match set_vals (hit_new, c)
          (vec3 "" (st_pos s) ++ [("t", fl (st_time s))] ++ vec3 "p" (st_mom s) ++ vec3 "b" (st_b s) ++
           vec3 "e" (st_e s) ++ vec3 "s" (st_spin s) ++
           [("station", PInt index); ("pid", PInt (mt_pid t)); ("particle_number", PInt (mt_id t))])%list with
  | (_, Some e) => inl (err_of e)
  | ((h, _), None) =>
      let pid := h_int h Ipid in
      match zassoc pdg_pid_to_mass (Z.abs pid), zassoc pdg_pid_to_charge pid with
      | Some m, Some q =>
          match set_vals (h, c)
                  [("mass", fl m); ("charge", PInt q); ("proper_time", fl (st_proper_time s));
                   ("path_length", fl (st_path_length s)); ("spill", PInt spill); ("event_number", PInt event)] with
          | (_, Some e) => inl (err_of e)
          | ((h', _), None) =>
              let (h2, r) := mass_shell h' "energy" in
              match ms_err r with Some e => inl (err_of e) | None => inr h2 end
          end
      | _, _ => inl MKey
      end
  end.

(** A loop that appends a hit for every record; the hits appended before an exception are kept. *)
Fixpoint gather {A} (mk : A -> MErr + RHit) (l : list A) (acc : list RHit) : list RHit * option MErr :=
  match l with
  | [] => (acc, None)
  | a :: r => match mk a with inr h => gather mk r (acc ++ [h])%list | inl e => (acc, Some e) end
  end.

(** hit 87-88, 118-120, 153: the records of a spill in the order of the loops. *)
Definition spill_virtuals (s : RootSpill) : list (Z * VirtualHit) :=
  flat_map (fun e => map (fun v => (fst e, v)) (mc_virtuals (snd e))) (enumerate 0 (rs_mc s)).
Definition spill_steps (s : RootSpill) : list (Z * McTrack * Z * Step) :=
  flat_map (fun e => flat_map (fun t => map (fun st => (fst e, t, fst st, snd st)) (enumerate 0 (mt_steps t)))
                              (mc_tracks (snd e)))
           (enumerate 0 (rs_mc s)).
Definition spill_primaries (s : RootSpill) : list (Z * Primary) :=
  map (fun e => (fst e, mc_primary (snd e))) (enumerate 0 (rs_mc s)).

(** recon 134-146: all differences of the times of the space points. *)
Definition tof_points (t0 t1 : list R) : list R := flat_map (fun b => map (fun a => b - a)%R t0) t1.
(** recon 148-157, 159-168: the difference of the means, if both lists have times. *)
Definition tof_means (t0 t1 : list R) : list R :=
  match t0, t1 with
  | [], _ | _, [] => []
  | _, _ => [(fold_left Rplus t1 0 / INR (List.length t1) - fold_left Rplus t0 0 / INR (List.length t0))%R]
  end.
(** recon 89-93; fallback_on_slabs and fallback_on_digits as they come (188-189). *)
Definition tof_times (t : TofEvent) : list R :=
  match tof_points (tof0_points t) (tof1_points t) with
  | [] => match tof_means (tof0_slabs t) (tof1_slabs t) with
          | [] => tof_means (tof0_digits t) (tof1_digits t)
          | l => l
          end
  | l => l
  end.

Inductive RootFormat := FVirtual | FPrimary | FStep | FScifi | FScifiTof.

Fixpoint set_all (c : RCtx) (k : string) (v : RVal) (hs : list RHit) : MErr + list RHit :=
  match hs with
  | [] => inr []
  | h :: r =>
      match py_set (h, c) k v with
      | (_, Some e) => inl (err_of e)
      | ((h', _), None) => match set_all c k v r with inl e => inl e | inr r' => inr (h' :: r') end
      end
  end.

(** recon 74-99: _read_maus_spill, with sf_p_value_cut = [cut]; [pep479]: see read_scifi. *)
Fixpoint recon_hits (pep479 : bool) (c : RCtx) (cut : R) (fmt : RootFormat) (spill : Z) (evs : list (Z * ReconEvent))
    (acc : list RHit) : list RHit * option MErr :=
  match evs with
  | [] => (acc, None)
  | (i, e) :: r =>
      match read_scifi pep479 c cut spill (re_tracks e) with
      | inl er => (acc, Some er)
      | inr [] => recon_hits pep479 c cut fmt spill r acc
      | inr hs =>
          match set_all c "event_number" (PInt i) hs with
          | inl er => (acc, Some er)
          | inr hs' =>
              match fmt with
              | FScifi => recon_hits pep479 c cut fmt spill r (acc ++ hs')
              | _ => match tof_times (re_tof e) with
                     | [] => recon_hits pep479 c cut fmt spill r acc
                     | d :: _ => match set_all c "t" (fl d) hs' with
                                 | inl er => (acc, Some er)
                                 | inr ht => recon_hits pep479 c cut fmt spill r (acc ++ ht)
                                 end
                     end
              end
          end
      end
  end.

(** How the file is read: the version of Python, the physical constants and settings, the cut, the test. *)
Record Reading := mkReading { rd_pep479 : bool; rd_ctx : RCtx; rd_cut : R; rd_test : RHit -> bool }.

(** hit 71-80, recon 74-99: the hits appended for one spill, and the exception if any. *)
Definition read_spill (rd : Reading) (fmt : RootFormat) (s : RootSpill) : list RHit * option MErr :=
  let c := rd_ctx rd in
  match fmt with
  | FVirtual => gather (fun r => root_virtual c (rs_number s) (fst r) (snd r)) (spill_virtuals s) []
  | FPrimary => gather (fun r => root_primary c (rs_number s) (fst r) (snd r)) (spill_primaries s) []
  | FStep => gather (fun r => let '(ev, t, i, st) := r in root_step c (rs_number s) ev t i st) (spill_steps s) []
  | FScifi | FScifiTof => recon_hits (rd_pep479 rd) c (rd_cut rd) fmt (rs_number s) (enumerate 0 (rs_recon s)) []
  end.

(** The factory: the hits in hand and the spills from the current entry on. *)
Record RootFactory := mkRoot { rf_hits : list RHit; rf_spills : list RootSpill }.

(** hit 47-69, recon 50-72: new_spill until there are hits.  After an exception the entry is still the
    one that failed and the hits found in it are kept, not tested; IndexError becomes
    BadEventError. *)
Definition bad_event (e : MErr) : MErr := match e with MIndex => MBadEvent | _ => e end.
Fixpoint root_next (rd : Reading) (fmt : RootFormat) (spills : list RootSpill)
  : (MErr * RootFactory) + (RHit * RootFactory) :=
  match spills with
  | [] => inl (MBadEvent, mkRoot [] [])
  | s :: r =>
      match read_spill rd fmt s with
      | (hs, Some e) => inl (bad_event e, mkRoot hs (s :: r))
      | (hs, None) =>
          match filter (rd_test rd) hs with
          | [] => root_next rd fmt r
          | h :: hs' => inr (h, mkRoot hs' r)
          end
      end
  end.
Definition root_make_hit (rd : Reading) (fmt : RootFormat) (f : RootFactory)
  : (MErr * RootFactory) + (RHit * RootFactory) :=
  match rf_hits f with
  | h :: hs => inr (h, mkRoot hs (rf_spills f))
  | [] => root_next rd fmt (rf_spills f)
  end.

(** _bunch.py 429-433: the loop for one type, at most [fuel] rounds. *)
Fixpoint root_take (fuel : nat) (rd : Reading) (fmt : RootFormat) (n : Z) (f : RootFactory) (acc : list RHit)
  : (MErr + list RHit) * RootFactory :=
  match fuel with
  | O => (inr acc, f)
  | S k =>
      if (Z.ltb n 0 || Z.ltb (Z.of_nat (List.length acc)) n)%bool then
        match root_make_hit rd fmt f with
        | inl (MBadEvent, f') => (inr acc, f')
        | inl (e, f') => (inl e, f')
        | inr (h, f') => root_take k rd fmt n f' (acc ++ [h])%list
        end
      else (inr acc, f)
  end.
(** Every round but the last takes one of these hits. *)
Definition root_fuel (rd : Reading) (fmt : RootFormat) (f : RootFactory) : nat :=
  S (List.length (rf_hits f) + List.length (flat_map (fun s => fst (read_spill rd fmt s)) (rf_spills f))).

(** hit 182-189, recon 171-175: file_types. *)
Definition root_format (t : string) : option RootFormat :=
  assoc [("maus_root_virtual_hit", FVirtual); ("maus_root_primary", FPrimary); ("maus_root_step", FStep);
         ("maus_root_scifi_trackpoint", FScifi); ("maus_root_scifi_and_tof", FScifiTof)] t.
Definition root_types : list string :=
  ["maus_root_virtual_hit"; "maus_root_primary"; "maus_root_step";
   "maus_root_scifi_trackpoint"; "maus_root_scifi_and_tof"].

Inductive RootErr := RUnbound | RErr (e : MErr).

(** _bunch.py 424-433: the loop over the types.  A type that neither factory knows leaves [fac] as it
    was; [None]: not assigned yet (UnboundLocalError, when make_hit is called). *)
Fixpoint root_read_types (rd : Reading) (n : Z) (spills : list RootSpill) (ts : list string)
    (fac : option (RootFormat * RootFactory)) (acc : list RHit) : RootErr + list RHit :=
  match ts with
  | [] => inr acc
  | t :: r =>
      match (match root_format t with Some fm => Some (fm, mkRoot [] spills) | None => fac end) with
      | None =>
          if (Z.ltb n 0 || Z.ltb (Z.of_nat (List.length acc)) n)%bool then inl RUnbound
          else root_read_types rd n spills r None acc
      | Some (fm, f) =>
          match root_take (root_fuel rd fm f) rd fm n f acc with
          | (inl e, _) => inl (RErr e)
          | (inr acc', f') => root_read_types rd n spills r (Some (fm, f')) acc'
          end
      end
  end.

(** _bunch.py 403-438: read_maus_root_file. *)
Definition read_maus_root_file (rd : Reading) (n : Z) (ts : option (list string)) (spills : list RootSpill)
  : RootErr + list RHit :=
  root_read_types rd n spills (match ts with Some l => l | None => root_types end) None [].

(** _bunch.py 300-314: new_from_read_builtin for the root types, given the files that match; [n]
    applies to every file. *)
Fixpoint root_read_files (rd : Reading) (n : Z) (t : string) (files : list (list RootSpill)) : RootErr + list RHit :=
  match files with
  | [] => inr []
  | f :: r =>
      match read_maus_root_file rd n (Some [t]) f with
      | inl e => inl e
      | inr hs => match root_read_files rd n t r with inl e => inl e | inr hs' => inr (hs ++ hs')%list end
      end
  end.
Definition new_from_maus_root (rd : Reading) (n : Z) (t : string) (files : list (list RootSpill)) : RootErr + list RHit :=
  match files with [] => inl (RErr MIO) | _ => root_read_files rd n t files end.
