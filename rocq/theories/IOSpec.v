(** Vocabulary for the file formats, independent of the tables in the code. *)
From Coq Require Import Reals ZArith List Bool String Ascii.
From Verif Require Import Num HitcoreModel HitcoreSpec HitPyModel TableModel IOModel.
Import ListNotations.
Open Scope string_scope.
Open Scope list_scope.
Open Scope R_scope.

(** The text formats. *)
Definition text_formats : list string :=
  [ "icool_for009"; "icool_for003"; "g4beamline_bl_track_file";
    "g4beamline_bl_track_file_2"; "mars_1" ].

(** The columns of a format, each with the size of its unit in mm, ns, MeV, kT. *)
Definition columns (fmt : string) : list (string * R) :=
  let plain := map (fun k => (k, 1)) in
  let length u := map (fun k => (k, u)) ["x"; "y"; "z"] in
  let momentum u := map (fun k => (k, u)) ["px"; "py"; "pz"] in
  if String.eqb fmt "icool_for009" then
    plain ["eventNumber"; "particleNumber"; "pid"; "status"; "station"] ++
    [("t", 1000000000)] ++ length 1000 ++ momentum 1000 ++
    map (fun k => (k, 1 / 1000)) ["bx"; "by"; "bz"] ++
    plain ["local_weight"; "ex"; "ey"; "ez"; ""; "sx"; "sy"; "sz"]
  else if String.eqb fmt "icool_for003" then
    plain ["eventNumber"; "particleNumber"; "pid"; "status"] ++
    [("t", 1000000000); ("local_weight", 1)] ++ length 1000 ++ momentum 1000 ++
    plain ["sx"; "sy"; "sz"]
  else if String.eqb fmt "g4beamline_bl_track_file" then
    length 1 ++ momentum 1 ++
    plain ["t"; "pid"; "eventNumber"; "particleNumber"; ""; "local_weight"]
  else if String.eqb fmt "g4beamline_bl_track_file_2" then
    length 1 ++ momentum 1 ++
    plain ["t"; "pid"; "eventNumber"; "particleNumber"; ""; "local_weight"; ""; ""; ""]
  else if String.eqb fmt "mars_1" then
    plain ["eventNumber"; "pid"] ++ length 1 ++ momentum 1000 ++
    [("energy", 1000); ("ct", 10); ("local_weight", 1)]
  else [].

(** The variable k of a hit is in the file (or can be computed from it): mars files have
    ct instead of t. *)
Definition carried (fmt k : string) : bool :=
  (existsb (fun c => String.eqb (canonical k) (canonical (fst c))) (columns fmt) ||
   (String.eqb fmt "mars_1" && String.eqb k "t"))%bool.

(** The particle numbering of a format: [file_id fmt pid n] when the particle with PDG
    number pid is written as n. *)
Definition file_id (fmt : string) (pid n : Z) : Prop :=
  if (String.eqb fmt "icool_for009" || String.eqb fmt "icool_for003")%bool then
    In (pid, n) [(0, 0); (-11, 1); (-13, 2); (211, 3); (321, 4); (2212, 5);
                 (11, -1); (13, -2); (-211, -3); (-321, -4); (-2212, -5)]%Z
  else if String.eqb fmt "mars_1" then
    In (pid, n) [(2212, 1); (2112, 2); (211, 3); (-211, 4); (321, 5); (-321, 6); (-13, 7);
                 (13, 8); (22, 9); (11, 10); (-11, 11); (-2212, 12); (111, 13);
                 (1000010020, 14); (1000010030, 15); (1000020030, 16); (1000020040, 17);
                 (14, 18); (-14, 19); (12, 20); (-12, 21); (130, 22); (310, 23); (311, 24);
                 (-311, 25); (3122, 26); (-3122, 27); (-2112, 31); (0, 40)]%Z
  else n = pid.

(** The format has a number for the particle. *)
Definition writable (fmt : string) (pid : Z) : Prop := exists n, file_id fmt pid n.

(** What a column of a written line holds for a hit in state s. *)
Definition column_holds (fmt : string) (s : PSt) (col : string * R) (t : Tok) : Prop :=
  if String.eqb (fst col) "" then t = TInt 0
  else if String.eqb (fst col) "pid" then
    exists pid n, py_get s "pid" = inr (PInt pid) /\ file_id fmt pid n /\ t = TInt n
  else
    (exists z, py_get s (fst col) = inr (PInt z) /\ t = TInt z) \/
    (exists x y, py_get s (fst col) = inr (@PFloat RNum x) /\ t = TNum y /\ y * snd col = x).

(** All stored variables and weights of all hits read the same. *)
Definition nothing_changed (w w' : World RNum) : Prop :=
  forall l k, hit_get w' l k = hit_get w l k.

(** The number of a hit's station. *)
Definition in_station (w : World RNum) (l : nat) (z : Z) : Prop :=
  hit_get w l "station" = Some (PInt z).

(** The particle number of a hit. *)
Definition has_pid (w : World RNum) (l : nat) (z : Z) : Prop :=
  hit_get w l "pid" = Some (PInt z).

(** The text has a newline. *)
Fixpoint has_newline (s : string) : bool :=
  match s with
  | "" => false
  | String c r => (Ascii.eqb c (ascii_of_nat 10) || has_newline r)%bool
  end.

(** PDG numbering of nuclei: 10LZZZAAAI has charge ZZZ. *)
Definition nucleus_charge (pid : Z) : Z := ((pid / 10000) mod 1000)%Z.

(** Lines that give a hit, and lines that make the load fail. *)
Definition hit_of (r : RRes) : list RHit := match r with RHitOk h => [h] | _ => [] end.
Definition fails (r : RRes) : Prop := exists e, r = RRaise e.

(** At most n elements of a list, all of them if n is negative. *)
Definition at_most {A} (n : Z) (l : list A) : list A :=
  if Z.ltb n 0 then l else firstn (Z.to_nat n) l.

(** Mass and charge of a particle according to the tables of the package; 0 for particles
    that are not in the tables. *)
Definition mass_for (pid : Z) : R :=
  match zassoc pdg_pid_to_mass (Z.abs pid) with Some m => m | None => 0 end.
Definition charge_for (pid : Z) : R :=
  match zassoc pdg_pid_to_charge pid with Some q => IZR q | None => 0 end.

(** [reads_back fmt s s']: s' is the hit read from the line written for s.  Mass and charge
    come from the particle number, the energy from mass and momentum; all variables in the
    file are those of s, and the other ones are those of a new hit. *)
Definition reads_back (fmt : string) (s s' : PSt) : Prop :=
  exists pid, py_get s "pid" = inr (PInt pid) /\
  py_get s' "mass" = inr (@PFloat RNum (mass_for pid)) /\
  py_get s' "charge" = inr (@PFloat RNum (charge_for pid)) /\
  (exists e px py pz, py_get s' "energy" = inr (@PFloat RNum e) /\
     py_get s' "px" = inr (@PFloat RNum px) /\ py_get s' "py" = inr (@PFloat RNum py) /\
     py_get s' "pz" = inr (@PFloat RNum pz) /\
     0 <= e /\ e * e = mass_for pid * mass_for pid + px * px + py * py + pz * pz) /\
  forall k, stored k -> k <> "mass" -> k <> "charge" -> k <> "energy" ->
    py_get s' k = if carried fmt k then py_get s k else py_get (hit_new, snd s') k.

(** The lines of a file that hold data: a header of 3 or 2 lines for the icool formats,
    comment lines anywhere for the g4beamline formats. *)
Definition is_comment (l : Line) : bool :=
  match l with
  | LText s => (String.eqb s "" || String.prefix "#" s)%bool
  | LData t => Nat.eqb (List.length t) 0
  end.
Definition data_lines (fmt : string) (file : list Line) : list Line :=
  if String.eqb fmt "icool_for009" then skipn 3 file
  else if String.eqb fmt "icool_for003" then skipn 2 file
  else if String.eqb fmt "mars_1" then file
  else filter (fun l => negb (is_comment l)) file.

(** The hits that the lines give, without those that fail the test. *)
Definition hits_in (mk : list Tok -> RRes) (test : RHit -> bool) (ls : list Line) : list RHit :=
  flat_map (fun l => filter test (hit_of (mk (tokens l)))) ls.

(** A token that is a number of a size that the hit can take. *)
Definition numeric (t : Tok) : Prop :=
  match t with TInt z => (-2147483648 <= z < 2147483648)%Z | TNum x => Rabs x < 2147483648
             | TBad => False end.

(** The state of a hit of a program. *)
Definition has_state (w : World RNum) (l : nat) (s : PSt) : Prop :=
  w_hits w l = Some (fst s) /\ cur_ctx w = snd s.

Definition station_is (w : World RNum) (z : Z) (l : nat) : bool :=
  match hit_get w l "station" with Some (PInt z') => Z.eqb z z' | _ => false end.

(** [by_station w ls ls']: ls' is ls in order of station, otherwise in the same order. *)
Definition by_station (w : World RNum) (ls ls' : list nat) : Prop :=
  (forall a b l1 l2 l3 y z, ls' = l1 ++ a :: l2 ++ b :: l3 ->
     in_station w a y -> in_station w b z -> (y <= z)%Z) /\
  (forall z, filter (station_is w z) ls' = filter (station_is w z) ls) /\
  (forall l, In l ls' <-> In l ls).

(** The lines for some hits: one line for each hit with a particle of the format. *)
Inductive written (fmt : string) (w : World RNum) : list nat -> list Line -> Prop :=
| written_nil : written fmt w [] []
| written_line : forall l s pid ts ls out,
    has_state w l s -> has_pid w l pid -> writable fmt pid ->
    Forall2 (column_holds fmt s) (columns fmt) ts ->
    written fmt w ls out -> written fmt w (l :: ls) (LData ts :: out)
| written_skip : forall l pid ls out,
    has_pid w l pid -> ~ writable fmt pid ->
    written fmt w ls out -> written fmt w (l :: ls) out.

(** The hits read from these lines by a program with weights c. *)
Inductive reloaded (fmt : string) (w : World RNum) (c : RCtx) : list nat -> list RHit -> Prop :=
| reloaded_nil : reloaded fmt w c [] []
| reloaded_hit : forall l s pid h ls hs,
    has_state w l s -> has_pid w l pid -> writable fmt pid ->
    reads_back fmt s (h, c) ->
    reloaded fmt w c ls hs -> reloaded fmt w c (l :: ls) (h :: hs)
| reloaded_skip : forall l pid ls hs,
    has_pid w l pid -> ~ writable fmt pid ->
    reloaded fmt w c ls hs -> reloaded fmt w c (l :: ls) hs.

(** The comment in the header. *)
Definition the_comment (c : option string) : string :=
  match c with Some s => s | None => "File generated by X_BOA" end.
