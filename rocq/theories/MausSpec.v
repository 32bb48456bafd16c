(** Vocabulary for the MAUS formats. *)
From Coq Require Import Reals ZArith List Bool String.
From Verif Require Import Num HitcoreModel HitPyModel HitPySpec TableModel IOSpec MausModel.
Import ListNotations.
Open Scope list_scope.

(** The distinct elements of a list, in the order in which they appear first. *)
Fixpoint firsts (l : list Z) : list Z :=
  match l with
  | [] => []
  | k :: r => k :: filter (fun k' => negb (Z.eqb k' k)) (firsts r)
  end.

(** The elements whose key is k, in order. *)
Definition with_key {A} (f : A -> Z) (k : Z) (l : list A) : list A := filter (fun a => Z.eqb (f a) k) l.

(** One group for every key. *)
Definition groups {A} (f : A -> Z) (l : list A) : list (list A) :=
  map (fun k => with_key f k l) (firsts (map f l)).

(** Elements with their numbers. *)
Fixpoint number {A} (n : nat) (l : list A) : list (nat * A) :=
  match l with [] => [] | a :: r => (n, a) :: number (S n) r end.

(** The leaves that a path finds in a document. *)
Fixpoint leaves (path : list PathElem) (t : Json) : list Json :=
  match path with
  | [] => [t]
  | PKey k :: r =>
      match t with
      | JDict d => match assoc d k with Some x => leaves r x | None => [] end
      | _ => []
      end
  | PSplit _ :: r => match t with JList l => flat_map (leaves r) l | _ => [] end
  end.

(** The attributes on which a path splits. *)
Definition splits (path : list PathElem) : list string :=
  flat_map (fun e => match e with PSplit k => [k] | PKey _ => [] end) path.

(** The last element is a key: there is place for one hit only. *)
Fixpoint ends_in_key (path : list PathElem) : bool :=
  match path with
  | [] => false
  | [PKey _] => true
  | _ :: r => ends_in_key r
  end.

(** Two members of the list agree on all of the attributes. *)
Fixpoint clash {A} (attr : string -> A -> Z) (ks : list string) (l : list A) : Prop :=
  match l with
  | [] => False
  | a :: r => (exists b, In b r /\ forall k, In k ks -> attr k a = attr k b) \/ clash attr ks r
  end.

Local Open Scope string_scope.

(** ---- documents ---- *)
Definition num (x : R) : Json := JNum (PFloat (x : RNum)).
Definition int (z : Z) : Json := JNum (PInt z).
Definition xyz (h : RHit) (x y z : DblVar) : Json :=
  JDict [("x", num (h_dbl h x)); ("y", num (h_dbl h y)); ("z", num (h_dbl h z))].

Definition virtual_object (h : RHit) : Json :=
  JDict [("position", xyz h Vx Vy Vz); ("momentum", xyz h Vpx Vpy Vpz);
         ("b_field", xyz h Vbx Vby Vbz); ("e_field", xyz h Vex Vey Vez);
         ("station_id", int (h_int h Istation)); ("particle_id", int (h_int h Ipid));
         ("track_id", int (h_int h Iparticle)); ("time", num (h_dbl h Vt)); ("mass", num (h_dbl h Vmass));
         ("charge", num (h_dbl h Vcharge)); ("proper_time", num (h_dbl h Vproper_time));
         ("path_length", num (h_dbl h Vpath_length))].
Definition primary_object (h : RHit) : Json :=
  JDict [("position", xyz h Vx Vy Vz); ("momentum", xyz h Vpx Vpy Vpz);
         ("particle_id", int (h_int h Ipid)); ("time", num (h_dbl h Vt)); ("energy", num (h_dbl h Venergy))].

Definition event_of (h : RHit) : Z := h_int h Ievent.
Definition particle_of (h : RHit) : Z := h_int h Iparticle.

(** A spill that holds the given events. *)
Definition spill_doc (evs : list Json) (i : nat) : Json :=
  JDict [("mc_events", JList evs); ("maus_event_type", JStr "Spill"); ("spill_number", int (Z.of_nat i))].

(** The spills of virtual hits: one spill for every event number, one event for every particle
    number. *)
Definition virtual_spills (hits : list RHit) : list Json :=
  map (fun e => spill_doc
                  (map (fun g => JDict [("virtual_hits", JList (map virtual_object g))])
                       (groups particle_of (snd e))) (fst e))
      (number 0 (groups event_of hits)).

(** The spills of primaries, one event for every hit. *)
Definition primary_spills (hits : list RHit) : list Json :=
  map (fun e => spill_doc (map (fun h => JDict [("primary", primary_object h)]) (snd e)) (fst e))
      (number 0 (groups event_of hits)).

(** ---- what comes back ---- *)
Local Open Scope R_scope.

Definition momentum_squared (h : RHit) : R :=
  (h_dbl h Vpx * h_dbl h Vpx + h_dbl h Vpy * h_dbl h Vpy + h_dbl h Vpz * h_dbl h Vpz)%R.

(** A virtual hit as a file keeps it: numbers of spill and event replaced, spin, deposited
    energy and weight lost, energy from mass and momentum. *)
Definition restored (spill event : nat) (h : RHit) : RHit :=
  @mkHit RNum
    (fun v => match v with
              | Venergy => sqrt (h_dbl h Vmass * h_dbl h Vmass + momentum_squared h)
              | Vsx | Vsy | Vsz | Ve_dep => 0
              | Vlocal_weight => 1
              | _ => h_dbl h v
              end)
    (fun i => match i with
              | Ispill => Z.of_nat spill
              | Ievent => Z.of_nat event
              | Istatus => 0%Z
              | _ => h_int h i
              end).

Definition restored_all (hits : list RHit) : list RHit :=
  flat_map (fun e => flat_map (fun g => map (restored (fst e) (fst g)) (snd g))
                              (number 0 (groups particle_of (snd e))))
           (number 0 (groups event_of hits)).

(** A primary that comes back: mass and charge of the particle, no fields. *)
Definition restored_primary (spill event : nat) (h : RHit) : RHit :=
  @mkHit RNum
    (fun v => match v with
              | Vx | Vy | Vz | Vt | Vpx | Vpy | Vpz | Venergy => h_dbl h v
              | Vmass => mass_for (h_int h Ipid)
              | Vcharge => charge_for (h_int h Ipid)
              | Vlocal_weight => 1
              | _ => 0
              end)
    (fun i => match i with
              | Ispill => Z.of_nat spill
              | Ievent => Z.of_nat event
              | Ipid => h_int h Ipid
              | _ => 0%Z
              end).
Definition restored_primaries (hits : list RHit) : list RHit :=
  flat_map (fun e => map (fun p => restored_primary (fst e) (fst p) (snd p)) (number 0 (snd e)))
           (number 0 (groups event_of hits)).

(** A particle of known mass, in flight and on its mass shell. *)
Definition physical (h : RHit) : Prop :=
  h_dbl h Vmass = mass_for (h_int h Ipid) /\ on_shell h /\
  0 < momentum_squared h /\ 0 < h_dbl h Venergy.

Definition ints32 (h : RHit) : Prop := forall i, (-2147483648 <= h_int h i < 2147483648)%Z.

(** A document that is not a spill. *)
Definition no_spill (doc : Json) : Prop :=
  exists d, doc = JDict d /\ assoc d "maus_event_type" <> Some (JStr "Spill").

(** An event of a file: virtual hits and a primary. *)
Record Event := mkEvent { ev_hits : list RHit; ev_primary : RHit }.
Definition event_doc (e : Event) : Json :=
  JDict [("virtual_hits", JList (map virtual_object (ev_hits e))); ("primary", primary_object (ev_primary e))].

(** A file: spills (number and events) and documents of other kinds. *)
Inductive Doc := Spill (i : nat) (evs : list Event) | Other (j : Json).
Definition doc_of (d : Doc) : Json :=
  match d with Spill i evs => spill_doc (map event_doc evs) i | Other j => j end.
Definition sound_event (e : Event) : Prop :=
  Forall ints32 (ev_hits e) /\ ints32 (ev_primary e) /\ physical (ev_primary e).
Definition small (n : nat) : Prop := (Z.of_nat n < 2147483648)%Z.
Definition sound_doc (d : Doc) : Prop :=
  match d with
  | Spill i evs => small i /\ small (List.length evs) /\ Forall sound_event evs
  | Other j => no_spill j
  end.

(** The virtual hits and the primaries of a file. *)
Definition virtuals (ds : list Doc) : list RHit :=
  flat_map (fun d => match d with
                     | Spill i evs => flat_map (fun e => map (restored i (fst e)) (ev_hits (snd e))) (number 0 evs)
                     | Other _ => []
                     end) ds.
Definition primaries (ds : list Doc) : list RHit :=
  flat_map (fun d => match d with
                     | Spill i evs => map (fun e => restored_primary i (fst e) (ev_primary (snd e))) (number 0 evs)
                     | Other _ => []
                     end) ds.

(** What a virtual hit keeps on its way through a file. *)
Definition keeps (h h' : RHit) : Prop :=
  (forall v, In v [Vx; Vy; Vz; Vt; Vpx; Vpy; Vpz; Vbx; Vby; Vbz; Vex; Vey; Vez; Vmass; Vcharge;
                   Vproper_time; Vpath_length] -> h_dbl h' v = h_dbl h v) /\
  (forall i, In i [Iparticle; Istation; Ipid] -> h_int h' i = h_int h i).

(** A track point whose tracker, station and plane are one digit each. *)
Definition digit (z : Z) : Prop := (0 <= z <= 9)%Z.
Definition digits (tp : TrackPoint) : Prop := digit (tp_tracker tp) /\ digit (tp_station tp) /\ digit (tp_plane tp).
Definition place (tp : TrackPoint) : Z * Z * Z := (tp_tracker tp, tp_station tp, tp_plane tp).
(** What the reader accepts. *)
Definition accepted_point (tp : TrackPoint) : Prop :=
  (0 <= tp_tracker tp <= 10 /\ 0 <= tp_station tp <= 10 /\ 0 <= tp_plane tp <= 10)%Z.

(** The hit of a track point. *)
Definition tracker_hit (spill : Z) (track : nat) (tp : TrackPoint) : RHit :=
  let '(x, y, z) := tp_pos tp in
  let '(px, py, pz) := tp_mom tp in
  @mkHit RNum
    (fun v => match v with
              | Vx => x | Vy => y | Vz => z | Vpx => px | Vpy => py | Vpz => pz
              | Vlocal_weight => 1 | _ => 0
              end)
    (fun i => match i with
              | Ispill => spill
              | Iparticle => Z.of_nat track
              | Istation => (90000 + 100 * tp_tracker tp + 10 * tp_station tp + tp_plane tp)%Z
              | _ => 0%Z
              end).
(** The tracks that pass the cut; no cut if it is not positive. *)
Definition passes (cut : R) (t : Track) : bool :=
  if Rlt_dec 0 cut then if Rlt_dec (fst t) cut then false else true else true.

(** A primary as ROOT holds it. *)
Definition root_of (h : RHit) : Primary :=
  mkPrimary (h_dbl h Vx, h_dbl h Vy, h_dbl h Vz) (h_dbl h Vpx, h_dbl h Vpy, h_dbl h Vpz)
            (h_int h Ipid) (h_dbl h Venergy) (h_dbl h Vt).
