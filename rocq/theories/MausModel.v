(** Model of the MAUS formats: the tree written to json files, the json reader, the readers
    of decoded ROOT records.

    Simplified: json.dumps and json.loads are exact inverses, so a line of a file is the
    document it holds.  A pid that is not an int is looked up as an unknown pid. *)
From Coq Require Import Reals ZArith List Bool String Ascii.
From Verif Require Import Num WeightModel HitcoreModel PyLibModel HitPyModel TableModel IOModel CommonModel.
Import ListNotations.
Open Scope list_scope.
Open Scope string_scope.

(** Which exception is raised. *)
Inductive MErr := MIO | MIndex | MKey | MAttribute | MType | MRuntime | MValue | MBadEvent | MPy (e : PyErr).

(** Documents. *)
Inductive Json :=
| JNum (v : RVal)
| JStr (s : string)
| JList (l : list Json)
| JDict (d : list (string * Json)).

(** ---- writing --------------------------------------------------------------------------- *)

(** _hit.py 841-844: __maus_three_vec_conversions. *)
Definition three_vecs : list (string * list (string * string)) :=
  [ ("maus_json_virtual_hit", [("position", ""); ("momentum", "p"); ("b_field", "b"); ("e_field", "e")]);
    ("maus_json_primary", [("position", ""); ("momentum", "p")]) ].

(** _hit.py 846-849: __maus_variable_conversions. *)
Definition variables : list (string * list (string * string)) :=
  [ ("maus_json_virtual_hit",
     [("station_id", "station"); ("particle_id", "pid"); ("track_id", "particle_number"); ("time", "t");
      ("mass", "mass"); ("charge", "charge"); ("proper_time", "proper_time"); ("path_length", "path_length")]);
    ("maus_json_primary", [("particle_id", "pid"); ("time", "t"); ("energy", "energy")]) ].

(** An element of a path: a string, or a list that holds one string. *)
Inductive PathElem := PKey (k : string) | PSplit (k : string).

(** _hit.py 851-854: __maus_paths. *)
Definition maus_paths : list (string * list PathElem) :=
  [ ("maus_json_virtual_hit", [PKey "mc_events"; PSplit "particle_number"; PKey "virtual_hits"; PSplit "station"]);
    ("maus_json_primary", [PKey "mc_events"; PSplit "particle_number"; PKey "primary"]) ].

Section Tree.
(** The hits, the value of an int variable, the dict of a hit. *)
Context {A : Type}.
Variable attr : string -> A -> Z.
Variable dict : A -> Json.

(** _hit.py 791-798: __split_list_by_equality; the dict keeps the order of insertion. *)
Fixpoint add_to_group (k : Z) (a : A) (d : list (Z * list A)) : list (Z * list A) :=
  match d with
  | [] => [(k, [a])]
  | (k', l) :: r => if Z.eqb k' k then (k', (l ++ [a])%list) :: r else (k', l) :: add_to_group k a r
  end.
Definition split_list_by_equality (l : list A) (k : string) : list (list A) :=
  map snd (fold_left (fun d a => add_to_group (attr k a) a d) l []).

(** All of a list or the first exception. *)
Fixpoint all_or {B} (l : list (MErr + B)) : MErr + list B :=
  match l with
  | [] => inr []
  | inl e :: _ => inl e
  | inr b :: r => match all_or r with inl e => inl e | inr bs => inr (b :: bs) end
  end.

(** _hit.py 768-788: __get_maus_tree_recursive.  An empty path (which no caller has) gives
    IndexError. *)
Fixpoint maus_tree (path : list PathElem) (hits : list A) : MErr + Json :=
  match path with
  | [] => inl MIndex
  | [PKey k] =>
      match hits with
      | [] => inl MIndex
      | [h] => inr (JDict [(k, dict h)])
      | _ => inl MIO
      end
  | [PSplit _] => inr (JList (map dict hits))
  | PSplit k :: r =>
      match all_or (map (maus_tree r) (split_list_by_equality hits k)) with
      | inl e => inl e
      | inr l => inr (JList l)
      end
  | PKey k :: r =>
      match maus_tree r hits with
      | inl e => inl e
      | inr t => inr (JDict [(k, t)])
      end
  end.
End Tree.

(** _hit.py 505-524: get_maus_dict, first part of the result, for a type in the tables (all
    variables of the tables are variables of the core).  Line 522 runs over an empty dict. *)
Definition get_num (c : RCtx) (h : RHit) (k : string) : Json :=
  match py_get (h, c) k with inr v => JNum v | inl _ => JNum POther end.
Definition maus_dict (c : RCtx) (tv vs : list (string * string)) (h : RHit) : Json :=
  JDict (map (fun e => (fst e, JDict (map (fun xyz => (xyz, get_num c h (snd e ++ xyz))) ["x"; "y"; "z"]))) tv
         ++ map (fun e => (fst e, get_num c h (snd e))) vs)%list.

(** hit[k] for a variable of type int. *)
Definition int_attr (c : RCtx) (k : string) (h : RHit) : Z :=
  match py_get (h, c) k with inr (PInt z) => z | _ => 0%Z end.

(** _hit.py 527-540: get_maus_tree. *)
Definition get_maus_tree (c : RCtx) (fmt : string) (hits : list RHit) : MErr + Json :=
  match assoc maus_paths fmt, assoc three_vecs fmt, assoc variables fmt with
  | Some path, Some tv, Some vs =>
      maus_tree (int_attr c) (maus_dict c tv vs) (PSplit "event_number" :: path) hits
  | _, _, _ => inl MKey
  end.

(** d[k] = v *)
Fixpoint jset (d : list (string * Json)) (k : string) (v : Json) : list (string * Json) :=
  match d with
  | [] => [(k, v)]
  | (k', v') :: r => if String.eqb k' k then (k', v) :: r else (k', v') :: jset r k v
  end.

(** _hit.py 433-437: the documents written, one per line. *)
Fixpoint number_spills (n : nat) (l : list Json) : MErr + list Json :=
  match l with
  | [] => inr []
  | JDict d :: r =>
      match number_spills (S n) r with
      | inl e => inl e
      | inr ds => inr (JDict (jset (jset d "maus_event_type" (JStr "Spill"))
                                   "spill_number" (JNum (PInt (Z.of_nat n)))) :: ds)
      end
  | _ :: _ => inl MType
  end.
Definition write_maus (c : RCtx) (fmt : string) (hits : list RHit) : MErr + list Json :=
  match get_maus_tree c fmt hits with
  | inl e => inl e
  | inr (JList l) => number_spills 0 l
  | inr _ => inl MType
  end.

(** ---- reading: _maus_json_hit_factory.py ---------------------------------------------------- *)

(** Variant of the tables for reading, 165-176. *)
Definition r_three_vecs : list (string * list (string * string)) :=
  [ ("virtual_hit", [("position", ""); ("momentum", "p"); ("b_field", "b"); ("e_field", "e")]);
    ("special_virtual_hit", [("position", ""); ("momentum", "p")]);
    ("primary", [("position", ""); ("momentum", "p")]) ].
Definition r_variables : list (string * list (string * string)) :=
  [ ("virtual_hit",
     [("station_id", "station"); ("particle_id", "pid"); ("track_id", "particle_number"); ("time", "t");
      ("mass", "mass"); ("charge", "charge"); ("proper_time", "proper_time"); ("path_length", "path_length")]);
    ("primary", [("particle_id", "pid"); ("time", "t"); ("energy", "energy")]);
    ("special_virtual_hit",
     [("particle_id", "pid"); ("track_id", "particle_number"); ("time", "t"); ("mass", "mass");
      ("charge", "charge"); ("path_length", "path_length"); ("energy_deposited", "e_dep")]) ].
(** 178-182 *)
Definition r_mass_shell : list (string * string) :=
  [ ("virtual_hit", "energy"); ("special_virtual_hit", "energy"); ("primary", "p") ].
(** The list of hits in an event. *)
Definition r_list : list (string * string) :=
  [ ("virtual_hit", "virtual_hits"); ("special_virtual_hit", "special_virtual_hits"); ("primary", "primary") ].

Fixpoint vset (d : list (string * RVal)) (k : string) (v : RVal) : list (string * RVal) :=
  match d with
  | [] => [(k, v)]
  | (k', v') :: r => if String.eqb k' k then (k', v) :: r else (k', v') :: vset r k v
  end.

Definition to_val (j : Json) : RVal := match j with JNum v => v | _ => POther end.

(** 133-135: the three vectors. *)
Fixpoint read_vecs (tv : list (string * string)) (md : list (string * Json)) (d : list (string * RVal))
  : MErr + list (string * RVal) :=
  match tv with
  | [] => inr d
  | (name, suffix) :: r =>
      match assoc md name with
      | None => inl MKey
      | Some (JDict xyz) =>
          read_vecs r md (fold_left (fun d e => vset d (suffix ++ fst e) (to_val (snd e))) xyz d)
      | Some _ => inl MAttribute
      end
  end.
(** 136-137 *)
Fixpoint read_vars (vs : list (string * string)) (md : list (string * Json)) (d : list (string * RVal))
  : MErr + list (string * RVal) :=
  match vs with
  | [] => inr d
  | (name, k) :: r =>
      match assoc md name with
      | None => inl MKey
      | Some j => read_vars r md (vset d k (to_val j))
      end
  end.
(** 139-150: mass and charge from the pid; line 141 and 147 with no pid: KeyError. *)
Definition mass_val (v : RVal) : RVal :=
  match v with
  | PInt z => match zassoc pdg_pid_to_mass (Z.abs z) with Some m => PFloat (m : RNum) | None => PFloat (0%R : RNum) end
  | _ => PFloat (0%R : RNum)
  end.
Definition charge_val (v : RVal) : RVal :=
  match v with
  | PInt z => match zassoc pdg_pid_to_charge z with Some q => PInt q | None => PFloat (0%R : RNum) end
  | _ => PFloat (0%R : RNum)
  end.
Definition read_mass_charge (d : list (string * RVal)) : MErr + list (string * RVal) :=
  match (match assoc d "mass", assoc d "pid" with
         | Some _, _ => inr d
         | None, Some p => inr (vset d "mass" (mass_val p))
         | None, None => inl MKey
         end) with
  | inl e => inl e
  | inr d1 =>
      match assoc d1 "charge", assoc d1 "pid" with
      | Some _, _ => inr d1
      | None, Some p => inr (vset d1 "charge" (charge_val p))
      | None, None => inl MKey
      end
  end.

(** _hit.py 138-153: new_from_dict on a hit on its own. *)
Fixpoint set_vals (s : PSt) (d : list (string * RVal)) : PSt * option PyErr :=
  match d with
  | [] => (s, None)
  | (k, v) :: r =>
      match py_set s k v with
      | (s', None) => set_vals s' r
      | (s', Some e) => (s', Some e)
      end
  end.
Definition err_of (e : PyErr) : MErr := match e with EIndexError => MIndex | e => MPy e end.
Definition hit_from_dict (c : RCtx) (d : list (string * RVal)) (ms : string) : MErr + RHit :=
  match set_vals (hit_new, c) d with
  | (_, Some e) => inl (err_of e)
  | ((h, _), None) =>
      let (h', r) := mass_shell h ms in
      match ms_err r with Some e => inl (err_of e) | None => inr h' end
  end.

(** 125-153: hit_from_maus_object.  [iteritems]: the method exists (Python 2, or [items]
    written in its place). *)
Definition hit_from_maus (iteritems : bool) (c : RCtx) (fmt : string) (j : Json) (ev : nat) : MErr + RHit :=
  match assoc r_three_vecs fmt, assoc r_variables fmt, assoc r_mass_shell fmt with
  | Some tv, Some vs, Some ms =>
      if negb iteritems then inl MAttribute
      else
        match j with
        | JDict md =>
        match read_vecs tv md [] with
        | inl e => inl e
        | inr d1 =>
            match read_vars vs md d1 with
            | inl e => inl e
            | inr d2 =>
                match read_mass_charge (vset d2 "event_number" (PInt (Z.of_nat ev))) with
                | inl e => inl e
                | inr d3 => hit_from_dict c d3 ms
                end
            end
        end
        | _ => inl MType
        end
  | _, _, _ => inl MKey
  end.

(** 102-104, 112-114, 120-123: the hit with its spill number; self.spill["spill_number"]. *)
Definition hit_of (iteritems : bool) (c : RCtx) (fmt : string) (spill : list (string * Json)) (j : Json) (ev : nat)
  : MErr + RHit :=
  match hit_from_maus iteritems c fmt j ev with
  | inl e => inl e
  | inr h =>
      match assoc spill "spill_number" with
      | None => inl MKey
      | Some n => match py_set (h, c) "spill" (to_val n) with
                  | ((h', _), None) => inr h'
                  | (_, Some e) => inl (err_of e)
                  end
      end
  end.

(** The hits of one event, appended to those found before; exception if any. *)
Fixpoint event_hits (mk : Json -> MErr + RHit) (js : list Json) (acc : list RHit) : list RHit * option MErr :=
  match js with
  | [] => (acc, None)
  | j :: r => match mk j with inr h => event_hits mk r (acc ++ [h])%list | inl e => (acc, Some e) end
  end.

(** 96-123: the loop over the events. *)
Fixpoint spill_hits (it : bool) (c : RCtx) (fmt : string) (spill : list (string * Json)) (evs : list Json)
    (ev : nat) (acc : list RHit) : list RHit * option MErr :=
  match evs with
  | [] => (acc, None)
  | JDict e :: r =>
      match assoc r_list fmt with
      | None => (acc, None)
      | Some name =>
          match assoc e name with
          | None => (acc, Some MKey)
          | Some x =>
              let js := if String.eqb fmt "primary" then Some [x]
                        else match x with JList l => Some l | _ => None end in
              match js with
              | None => (acc, Some MType)
              | Some l =>
                  match event_hits (fun j => hit_of it c fmt spill j ev) l acc with
                  | (acc', None) => spill_hits it c fmt spill r (S ev) acc'
                  | (acc', Some er) => (acc', Some er)
                  end
              end
          end
      end
  | _ :: _ => (acc, Some MType)
  end.

(** 50-70 for one document: the hits it gives and the exception that leaves new_spill; a
    KeyError is swallowed, the hits found before it are kept.  Simplified: a document that is
    not a dict is passed over. *)
Definition read_doc (it : bool) (c : RCtx) (fmt : string) (doc : Json) : list RHit * option MErr :=
  match doc with
  | JDict d =>
      match assoc d "maus_event_type" with
      | Some (JStr s) =>
          if String.eqb s "Spill" then
            match assoc d "mc_events" with
            | Some (JList evs) =>
                match spill_hits it c fmt d evs 0 [] with
                | (hs, Some MKey) => (hs, None)
                | r => r
                end
            | Some _ => ([], Some MType)
            | None => ([], None)
            end
          else ([], None)
      | _ => ([], None)
      end
  | _ => ([], None)
  end.

(** 36-47: the constructor strips maus_json_ (or maus_); KeyError for other types. *)
Definition json_format (fmt : string) : option string :=
  assoc [ ("maus_json_virtual_hit", "virtual_hit"); ("maus_json_primary", "primary");
          ("maus_json_special_virtual_hit", "special_virtual_hit");
          ("maus_virtual_hit", "virtual_hit"); ("maus_primary", "primary") ] fmt.

(** The factory: hits in hand and the documents not read yet. *)
Record Factory := mkFactory { f_hits : list RHit; f_docs : list Json }.

(** 50-83: make_hit; an exception comes with the documents not read yet. *)
Fixpoint next_spill (it : bool) (c : RCtx) (fmt : string) (docs : list Json)
  : (MErr * list Json) + (RHit * Factory) :=
  match docs with
  | [] => inl (MBadEvent, [])
  | d :: r =>
      match read_doc it c fmt d with
      | (_, Some MIndex) => inl (MBadEvent, r)
      | (_, Some e) => inl (e, r)
      | ([], None) => next_spill it c fmt r
      | (h :: hs, None) => inr (h, mkFactory hs r)
      end
  end.
Definition make_hit (it : bool) (c : RCtx) (fmt : string) (f : Factory)
  : (MErr * list Json) + (RHit * Factory) :=
  match f_hits f with
  | h :: hs => inr (h, mkFactory hs (f_docs f))
  | [] => next_spill it c fmt (f_docs f)
  end.

(** _bunch.py 456-460: the loop, at most [fuel] rounds; the hits and the documents not read. *)
Fixpoint take_hits (fuel : nat) (it : bool) (c : RCtx) (fmt : string) (n : Z) (f : Factory) (acc : list RHit)
  : (MErr + list RHit) * list Json :=
  match fuel with
  | O => (inr acc, f_docs f)
  | S k =>
      if (Z.ltb n 0 || Z.ltb (Z.of_nat (List.length acc)) n)%bool then
        match make_hit it c fmt f with
        | inl (MBadEvent, docs) => (inr acc, docs)
        | inl (e, docs) => (inl e, docs)
        | inr (h, f') => take_hits k it c fmt n f' (acc ++ [h])%list
        end
      else (inr acc, f_docs f)
  end.

(** Every round but the last takes one of these hits. *)
Definition doc_hits (it : bool) (c : RCtx) (fmt : string) (docs : list Json) : nat :=
  List.length (flat_map (fun d => fst (read_doc it c fmt d)) docs).

(** _bunch.py 454-461: one factory after the other on one file handle. *)
Fixpoint read_types (it : bool) (c : RCtx) (n : Z) (fmts : list string) (docs : list Json) (acc : list RHit)
  : MErr + list RHit :=
  match fmts with
  | [] => inr acc
  | fmt :: r =>
      match json_format fmt with
      | None => inl MKey
      | Some fm =>
          match take_hits (S (doc_hits it c fm docs)) it c fm n (mkFactory [] docs) acc with
          | (inl e, _) => inl e
          | (inr acc', rest) => read_types it c n r rest acc'
          end
      end
  end.

(** _bunch.py 441-463: read_maus_json_file. *)
Definition read_maus_json_file (it : bool) (c : RCtx) (docs : list Json) (n : Z) (fmts : list string)
  : MErr + list RHit := read_types it c n fmts docs [].
Definition default_types : list string :=
  [ "maus_json_virtual_hit"; "maus_json_primary"; "maus_json_special_virtual_hit" ].

(** _bunch.py 311-321: new_from_read_builtin for the json types, given the files that match.
    [n] applies to every file. *)
Fixpoint read_json_files (it : bool) (c : RCtx) (n : Z) (fmt : string) (files : list (list Json))
  : MErr + list RHit :=
  match files with
  | [] => inr []
  | f :: r =>
      match read_maus_json_file it c f n [fmt] with
      | inl e => inl e
      | inr hs => match read_json_files it c n fmt r with inl e => inl e | inr hs' => inr (hs ++ hs')%list end
      end
  end.
Definition new_from_maus_json (it : bool) (c : RCtx) (test : RHit -> bool) (n : Z) (fmt : string)
    (files : list (list Json)) : MErr + list RHit :=
  match files with
  | [] => inl MIO
  | _ => match read_json_files it c n fmt files with
         | inl e => inl e
         | inr hs => inr (filter test hs)
         end
  end.

(** ---- decoded ROOT records ------------------------------------------------------------------ *)

(** The getters of a primary (MAUS::Primary). *)
Record Primary := mkPrimary { pr_pos : R * R * R; pr_mom : R * R * R; pr_pid : Z; pr_energy : R; pr_time : R }.

Definition fl (x : R) : RVal := PFloat (x : RNum).
Definition vec3 (p : string) (v : R * R * R) : list (string * RVal) :=
  let '(x, y, z) := v in [(p ++ "x", fl x); (p ++ "y", fl y); (p ++ "z", fl z)].

(** _maus_root_hit_factory.py 150-179: _read_primaries, one event.  Line 174 looks the charge up with the
    value of "charge". *)
Definition root_primary (c : RCtx) (spill event : Z) (p : Primary) : MErr + RHit :=
  match set_vals (hit_new, c)
          (vec3 "" (pr_pos p) ++ vec3 "p" (pr_mom p) ++
           [("pid", PInt (pr_pid p)); ("energy", fl (pr_energy p)); ("spill", PInt spill);
            ("event_number", PInt event); ("t", fl (pr_time p))])%list with
  | (_, Some e) => inl (err_of e)
  | ((h, _), None) =>
      let h1 := put h c "mass" (mass_val (PInt (h_int h Ipid))) in
      let q := h_dbl h1 Vcharge in
      let h2 := put h1 c "charge"
                  (match zassoc pdg_pid_to_charge (trunc q) with
                   | Some z => if Req_EM_T (IZR (trunc q)) q then PInt z else fl 0
                   | None => fl 0
                   end) in
      let (h3, r) := mass_shell h2 "p" in
      match ms_err r with Some e => inl (err_of e) | None => inr h3 end
  end.

(** The same primary as a json object. *)
Definition json_vec (v : R * R * R) : Json :=
  let '(x, y, z) := v in JDict [("x", JNum (fl x)); ("y", JNum (fl y)); ("z", JNum (fl z))].
Definition json_primary (p : Primary) : Json :=
  JDict [("position", json_vec (pr_pos p)); ("momentum", json_vec (pr_mom p));
         ("particle_id", JNum (PInt (pr_pid p))); ("time", JNum (fl (pr_time p)));
         ("energy", JNum (fl (pr_energy p)))].

(** ---- _maus_root_recon_hit_factory.py ---------------------------------------------------------- *)

(** The getters of a track point. *)
Record TrackPoint := mkTP { tp_tracker : Z; tp_station : Z; tp_plane : Z; tp_pos : R * R * R; tp_mom : R * R * R }.
(** A track: its P value and its points. *)
Definition Track : Type := R * list TrackPoint.

(** 110-120: the station number; [None]: ValueError. *)
Definition sf_station (tracker station plane : Z) : option Z :=
  if (Z.ltb 10 tracker || Z.ltb tracker 0 || Z.ltb 10 station || Z.ltb station 0 ||
      Z.ltb 10 plane || Z.ltb plane 0)%bool
  then None
  else Some (90000 + tracker * 100 + station * 10 + plane * 1)%Z.

(** 110-131: one track point. *)
Definition sf_hit (c : RCtx) (spill track : Z) (tp : TrackPoint) : MErr + RHit :=
  match sf_station (tp_tracker tp) (tp_station tp) (tp_plane tp) with
  | None => inl MValue
  | Some st =>
      match set_vals (hit_new, c)
              ([("station", PInt st)] ++ vec3 "" (tp_pos tp) ++ vec3 "p" (tp_mom tp) ++
               [("spill", PInt spill); ("particle_number", PInt track)])%list with
      | (_, Some e) => inl (err_of e)
      | ((h, _), None) => inr h
      end
  end.

Fixpoint sf_points (c : RCtx) (spill track : Z) (tps : list TrackPoint) : MErr + list RHit :=
  match tps with
  | [] => inr []
  | tp :: r =>
      match sf_hit c spill track tp with
      | inl e => inl e
      | inr h => match sf_points c spill track r with inl e => inl e | inr hs => inr (h :: hs) end
      end
  end.

(** 101-132: _read_scifi_trackpoints, run to its end by the list comprehension of line 80, with
    sf_p_value_cut = [cut].  [pep479]: StopIteration raised in a generator becomes
    RuntimeError (Python 3.7 and later). *)
Fixpoint sf_tracks (c : RCtx) (cut : R) (spill track : Z) (ts : list Track) : MErr + list RHit :=
  match ts with
  | [] => inr []
  | (pval, tps) :: r =>
      match (if (rltb 0 cut && rltb pval cut)%bool then inr [] else sf_points c spill track tps) with
      | inl e => inl e
      | inr hs => match sf_tracks c cut spill (track + 1)%Z r with
                  | inl e => inl e
                  | inr hs' => inr (hs ++ hs')%list
                  end
      end
  end.
Definition read_scifi (pep479 : bool) (c : RCtx) (cut : R) (spill : Z) (ts : list Track) : MErr + list RHit :=
  match sf_tracks c cut spill 0 ts with
  | inl e => inl e
  | inr hs => if pep479 then inl MRuntime else inr hs
  end.
