(** Vocabulary for tracking with MAUS. *)
From Coq Require Import Reals ZArith List Bool String.
From Verif Require Import Num HitcoreModel HitPyModel TableModel IOSpec MausModel MausSpec MausTrackModel.
Import ListNotations.
Open Scope list_scope.
Open Scope string_scope.

(** What a document holds under a path. *)
Fixpoint under (j : Json) (path : list string) : option Json :=
  match path with
  | [] => Some j
  | k :: r => match j with JDict d => match assoc d k with Some v => under v r | None => None end | _ => None end
  end.

(** The document tells position, momentum, time and kind of the particle h. *)
Definition tells (j : Json) (h : RHit) : Prop :=
  under j ["position"; "x"] = Some (num (h_dbl h Vx)) /\ under j ["position"; "y"] = Some (num (h_dbl h Vy)) /\
  under j ["position"; "z"] = Some (num (h_dbl h Vz)) /\ under j ["momentum"; "x"] = Some (num (h_dbl h Vpx)) /\
  under j ["momentum"; "y"] = Some (num (h_dbl h Vpy)) /\ under j ["momentum"; "z"] = Some (num (h_dbl h Vpz)) /\
  under j ["time"] = Some (num (h_dbl h Vt)) /\ under j ["particle_id"] = Some (int (h_int h Ipid)).
(** ... of a primary and of a particle that crosses a plane. *)
Definition tells_primary (j : Json) (h : RHit) : Prop :=
  tells j h /\ under j ["energy"] = Some (num (h_dbl h Venergy)).
Definition tells_crossing (j : Json) (h : RHit) : Prop :=
  tells j h /\ under j ["track_id"] = Some (int (h_int h Iparticle)) /\
  under j ["station_id"] = Some (int (h_int h Istation)).

(** A particle that is in the tables of masses and of charges. *)
Definition in_tables (pid : Z) : Prop :=
  (exists m, zassoc pdg_pid_to_mass (Z.abs pid) = Some m) /\ (exists q, zassoc pdg_pid_to_charge pid = Some q).

(** The event of one particle that was fired: the primary h and the crossings hs. *)
Definition tells_event (j : Json) (e : Event) : Prop :=
  (exists p, under j ["primary"] = Some p /\ tells_primary p (ev_primary e)) /\
  (exists vs, under j ["virtual_hits"] = Some (JList vs) /\ Forall2 tells_crossing vs (ev_hits e)).
Definition sound (e : Event) : Prop :=
  ints32 (ev_primary e) /\ in_tables (h_int (ev_primary e) Ipid) /\
  Forall (fun h => ints32 h /\ in_tables (h_int h Ipid)) (ev_hits e).

(** The hits that come back. *)
Definition out_primary (spill ev : Z) (h : RHit) : RHit :=
  @mkHit RNum
    (fun v => match v with
              | Vx | Vy | Vz | Vt | Vpx | Vpy | Vpz | Venergy => h_dbl h v
              | Vmass => mass_for (h_int h Ipid)
              | Vcharge => charge_for (h_int h Ipid)
              | Vlocal_weight => 1%R
              | _ => 0%R
              end)
    (fun i => match i with
              | Ispill => spill | Ievent => ev | Ipid => h_int h Ipid
              | Iparticle => 1 | Istation => -1 | _ => 0
              end)%Z.
Definition out_crossing (spill ev : Z) (h : RHit) : RHit :=
  @mkHit RNum
    (fun v => match v with
              | Vx | Vy | Vz | Vt | Vpx | Vpy | Vpz => h_dbl h v
              | Venergy => sqrt (mass_for (h_int h Ipid) * mass_for (h_int h Ipid) + momentum_squared h)
              | Vmass => mass_for (h_int h Ipid)
              | Vcharge => charge_for (h_int h Ipid)
              | Vlocal_weight => 1
              | _ => 0
              end)%R
    (fun i => match i with
              | Ispill => spill | Ievent => ev
              | Ipid | Iparticle | Istation => h_int h i
              | _ => 0
              end)%Z.
Definition out_event (spill : Z) (e : nat * Event) : list RHit :=
  out_primary spill (Z.of_nat (fst e)) (ev_primary (snd e)) ::
  map (out_crossing spill (Z.of_nat (fst e))) (ev_hits (snd e)).

(** The seeds in a list of primaries. *)
Definition seed_in (j : Json) : option Z :=
  match under j ["primary"; "random_seed"] with Some (JNum (PInt z)) => Some z | _ => None end.
Definition seeds_in (j : Json) : list (option Z) :=
  match j with JList l => map seed_in l | _ => [] end.

(** The calls made on a tracker, and the seeds of all particles it fired. *)
Definition calls_on (i : nat) (l : list Call) : list Call := filter (fun k => Nat.eqb (ca_tracker k) i) l.
Definition seeds_fired (i : nat) (l : list Call) : list (option Z) :=
  flat_map (fun k => seeds_in (ca_given k)) (calls_on i l).

(** first, first+1, ... *)
Definition consecutive (first : Z) (n : nat) : list (option Z) :=
  map (fun k => Some (first + Z.of_nat k)%Z) (seq 0 n).

(** The particle itself as the simulation is told of it. *)
Definition fires (j : Json) (h : RHit) : Prop :=
  exists p, under j ["primary"] = Some p /\ tells_primary p h.

(** A call on one tracker. *)
Inductive Fire := Many (hits : list RHit) | One (h : RHit).
Definition on (i : nat) (f : Fire) : TOp := match f with Many hits => TMany i hits | One h => TOne i h end.
(** What a call looks like, whoever made it. *)
Definition seen (k : Call) : option Json * Json * (MErr + list (list RHit)) := (ca_running k, ca_given k, ca_result k).

(** No other cards than d are given. *)
Definition one_deck (d : Json) (op : TOp) : Prop :=
  match op with TNew cards _ => cards = None \/ cards = Some d | _ => True end.
