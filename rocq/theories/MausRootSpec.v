(** The hits that a MAUS ROOT file holds, in terms of its records. *)
From Coq Require Import Reals ZArith String List Bool.
From Verif Require Import Num HitcoreModel PyLibModel HitPyModel TableModel IOModel IOSpec CommonModel
  MausModel MausSpec MausRootModel.
Import ListNotations.
Open Scope list_scope.
Open Scope R_scope.

Definition cx (v : R * R * R) : R := fst (fst v).
Definition cy (v : R * R * R) : R := snd (fst v).
Definition cz (v : R * R * R) : R := snd v.
Definition norm2 (v : R * R * R) : R := cx v * cx v + cy v * cy v + cz v * cz v.

(** The hit of a virtual hit: its fields, the numbers of spill and event, and the energy of
    its mass and momentum. *)
Definition virtual_hit (spill : Z) (event : nat) (v : VirtualHit) : RHit :=
  @mkHit RNum
    (fun k => match k with
              | Vx => cx (vh_pos v) | Vy => cy (vh_pos v) | Vz => cz (vh_pos v) | Vt => vh_time v
              | Vpx => cx (vh_mom v) | Vpy => cy (vh_mom v) | Vpz => cz (vh_mom v)
              | Vbx => cx (vh_b v) | Vby => cy (vh_b v) | Vbz => cz (vh_b v)
              | Vex => cx (vh_e v) | Vey => cy (vh_e v) | Vez => cz (vh_e v)
              | Vmass => vh_mass v | Vcharge => vh_charge v
              | Vproper_time => vh_proper_time v | Vpath_length => vh_path_length v
              | Venergy => sqrt (vh_mass v * vh_mass v + norm2 (vh_mom v))
              | Vlocal_weight => 1
              | _ => 0
              end)
    (fun i => match i with
              | Ispill => spill | Ievent => Z.of_nat event | Iparticle => vh_track v
              | Istation => vh_station v | Ipid => vh_pid v
              | _ => 0%Z
              end).

(** The hit of a step: the station is its number in the track, mass and charge are those of
    the particle of the track. *)
Definition step_hit (spill : Z) (event : nat) (t : McTrack) (index : nat) (s : Step) : RHit :=
  @mkHit RNum
    (fun k => match k with
              | Vx => cx (st_pos s) | Vy => cy (st_pos s) | Vz => cz (st_pos s) | Vt => st_time s
              | Vpx => cx (st_mom s) | Vpy => cy (st_mom s) | Vpz => cz (st_mom s)
              | Vbx => cx (st_b s) | Vby => cy (st_b s) | Vbz => cz (st_b s)
              | Vex => cx (st_e s) | Vey => cy (st_e s) | Vez => cz (st_e s)
              | Vsx => cx (st_spin s) | Vsy => cy (st_spin s) | Vsz => cz (st_spin s)
              | Vmass => mass_for (mt_pid t) | Vcharge => charge_for (mt_pid t)
              | Vproper_time => st_proper_time s | Vpath_length => st_path_length s
              | Venergy => sqrt (mass_for (mt_pid t) * mass_for (mt_pid t) + norm2 (st_mom s))
              | Vlocal_weight => 1
              | _ => 0
              end)
    (fun i => match i with
              | Ispill => spill | Ievent => Z.of_nat event | Iparticle => mt_id t
              | Istation => Z.of_nat index | Ipid => mt_pid t
              | _ => 0%Z
              end).

(** The hit of a primary; the charge is 0 (C68). *)
Definition primary_hit (spill : Z) (event : nat) (p : Primary) : RHit :=
  @mkHit RNum
    (fun k => match k with
              | Vx => cx (pr_pos p) | Vy => cy (pr_pos p) | Vz => cz (pr_pos p) | Vt => pr_time p
              | Vpx => cx (pr_mom p) | Vpy => cy (pr_mom p) | Vpz => cz (pr_mom p)
              | Vmass => mass_for (pr_pid p) | Venergy => pr_energy p
              | Vlocal_weight => 1
              | _ => 0
              end)
    (fun i => match i with
              | Ispill => spill | Ievent => Z.of_nat event | Ipid => pr_pid p
              | _ => 0%Z
              end).
(** A primary in flight, on the mass shell of its particle. *)
Definition flying (p : Primary) : Prop :=
  pr_energy p * pr_energy p = mass_for (pr_pid p) * mass_for (pr_pid p) + norm2 (pr_mom p) /\
  0 < norm2 (pr_mom p) /\ 0 < pr_energy p.
(** A primary whose energy is less than the mass of its particle. *)
Definition too_slow (p : Primary) : Prop :=
  pr_energy p * pr_energy p < mass_for (pr_pid p) * mass_for (pr_pid p).

(** The time of flight: between the first space points; failing that between the means of the
    slab hits; failing that between the means of the digits. *)
Definition sum (l : list R) : R := fold_right Rplus 0 l.
Definition mean_time (l : list R) : R := sum l / INR (List.length l).
Definition between_means (t0 t1 : list R) : option R :=
  match t0, t1 with
  | _ :: _, _ :: _ => Some (mean_time t1 - mean_time t0)
  | _, _ => None
  end.
Definition flight_time (t : TofEvent) : option R :=
  match tof0_points t, tof1_points t with
  | a :: _, b :: _ => Some (b - a)
  | _, _ => match between_means (tof0_slabs t) (tof1_slabs t) with
            | Some d => Some d
            | None => between_means (tof0_digits t) (tof1_digits t)
            end
  end.

(** The hits of the track points of an event, at time t. *)
Definition point_hits (cut : R) (spill : Z) (event : nat) (t : R) (e : ReconEvent) : list RHit :=
  flat_map (fun k => if passes cut (snd k)
                     then map (fun tp => hit_set_dbl (hit_set_int (tracker_hit spill (fst k) tp) Ievent (Z.of_nat event))
                                                     Vt (t : RNum)) (snd (snd k))
                     else [])
           (number 0 (re_tracks e)).

(** All hits of a type in one spill, in the order of the file. *)
Definition spill_hits (cut : R) (fmt : RootFormat) (s : RootSpill) : list RHit :=
  match fmt with
  | FVirtual => flat_map (fun e => map (virtual_hit (rs_number s) (fst e)) (mc_virtuals (snd e))) (number 0 (rs_mc s))
  | FPrimary => map (fun e => primary_hit (rs_number s) (fst e) (mc_primary (snd e))) (number 0 (rs_mc s))
  | FStep =>
      flat_map (fun e =>
        flat_map (fun t => map (fun st => step_hit (rs_number s) (fst e) t (fst st) (snd st)) (number 0 (mt_steps t)))
                 (mc_tracks (snd e)))
        (number 0 (rs_mc s))
  | FScifi => flat_map (fun e => point_hits cut (rs_number s) (fst e) 0 (snd e)) (number 0 (rs_recon s))
  | FScifiTof =>
      flat_map (fun e => match flight_time (re_tof (snd e)) with
                         | Some t => point_hits cut (rs_number s) (fst e) t (snd e)
                         | None => []
                         end) (number 0 (rs_recon s))
  end.
Definition file_hits (cut : R) (fmt : RootFormat) (spills : list RootSpill) : list RHit :=
  flat_map (spill_hits cut fmt) spills.

(** Numbers that fit into 32 bits, as they do in ROOT. *)
Definition in32 (z : Z) : Prop := (-2147483648 <= z < 2147483648)%Z.
Definition fits (s : RootSpill) : Prop :=
  in32 (rs_number s) /\ small (List.length (rs_mc s)) /\ small (List.length (rs_recon s)) /\
  Forall (fun e =>
    Forall (fun v => in32 (vh_pid v) /\ in32 (vh_station v) /\ in32 (vh_track v)) (mc_virtuals e) /\
    Forall (fun t => in32 (mt_pid t) /\ in32 (mt_id t) /\ small (List.length (mt_steps t))) (mc_tracks e) /\
    in32 (pr_pid (mc_primary e))) (rs_mc s) /\
  Forall (fun e => small (List.length (re_tracks e))) (rs_recon s).

(** A particle of the tables. *)
Definition known_particle (pid : Z) : Prop :=
  zassoc pdg_pid_to_mass (Z.abs pid) <> None /\ zassoc pdg_pid_to_charge pid <> None.

(** What the reader of a type asks of a spill. *)
Definition readable (rd : Reading) (fmt : RootFormat) (s : RootSpill) : Prop :=
  fits s /\
  match fmt with
  | FVirtual => True
  | FPrimary => Forall (fun e => flying (mc_primary e)) (rs_mc s)
  | FStep => Forall (fun e => Forall (fun t => mt_steps t = [] \/ known_particle (mt_pid t)) (mc_tracks e)) (rs_mc s)
  | FScifi | FScifiTof =>
      rs_recon s = [] \/
      (rd_pep479 rd = false /\
       Forall (fun e => Forall (fun t => passes (rd_cut rd) t = true -> Forall accepted_point (snd t)) (re_tracks e))
              (rs_recon s))
  end.
