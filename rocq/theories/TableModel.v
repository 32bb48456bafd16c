(** Model of the particle id, unit and file format tables.
    Source: xboa/common/_common.py 66-108, xboa/hit/_hit.py 816-900,
    xboa/hit/factory/_builtin_hit_factory.py 68-101, xboa/bunch/_bunch.py 1906. *)
From Coq Require Import Reals ZArith List Bool String.
From Verif Require Import Num HitcoreModel.
Import ListNotations.
Open Scope string_scope.
Open Scope list_scope.

(** dict lookup and dict assignment with integer keys. *)
Fixpoint zassoc {A} (d : list (Z * A)) (k : Z) : option A :=
  match d with
  | [] => None
  | (k', v) :: r => if Z.eqb k' k then Some v else zassoc r k
  end.

Fixpoint zset {A} (d : list (Z * A)) (k : Z) (v : A) : list (Z * A) :=
  match d with
  | [] => [(k, v)]
  | (k', v') :: r => if Z.eqb k' k then (k, v) :: r else (k', v') :: zset r k v
  end.

(** _common.py 72-74 and 83-85: [for k,v in table.items(): inverse[v] = k]. *)
Definition invert (d : list (Z * Z)) : list (Z * Z) :=
  fold_left (fun acc kv => zset acc (snd kv) (fst kv)) d [].

(** _common.py 71. *)
Definition icool_pid_to_pdg : list (Z * Z) :=
  [(0, 0); (1, -11); (2, -13); (3, 211); (4, 321); (5, 2212);
   (-1, 11); (-2, 13); (-3, -211); (-4, -321); (-5, -2212)]%Z.
Definition pdg_pid_to_icool : list (Z * Z) := invert icool_pid_to_pdg.

(** _common.py 82. *)
Definition mars_pid_to_pdg : list (Z * Z) :=
  [(1, 2212); (2, 2112); (3, 211); (4, -211); (5, 321); (6, -321); (7, -13); (8, 13);
   (9, 22); (10, 11); (11, -11); (12, -2212); (13, 111); (14, 1000010020);
   (15, 1000010030); (16, 1000020030); (17, 1000020040); (18, 14); (19, -14); (20, 12);
   (21, -12); (22, 130); (23, 310); (24, 311); (25, -311); (26, 3122); (27, -3122);
   (28, 0); (29, 0); (30, 0); (31, -2112); (32, 0); (33, 0); (34, 0); (35, 0); (36, 0);
   (38, 0); (39, 0); (40, 0)]%Z.
Definition pdg_pid_to_mars : list (Z * Z) := invert mars_pid_to_pdg.

(** _common.py 87. *)
Definition pdg_pid_to_mass : list (Z * R) :=
  [(0%Z, 0); (11%Z, 0.510998910); (12%Z, 0); (13%Z, 105.6583668); (14%Z, 0); (22%Z, 0);
   (111%Z, 134.9766); (211%Z, 139.57018); (321%Z, 493.667); (2112%Z, 939.56536);
   (2212%Z, 938.271996); (1000010020%Z, 1876.1239); (1000010030%Z, 2809.432);
   (1000020030%Z, 2809.41346); (1000020040%Z, 3728.4001); (130%Z, 497.614);
   (310%Z, 497.614); (311%Z, 497.614); (3122%Z, 1115.683)]%R.

(** _common.py 91. *)
Definition pdg_pid_to_charge : list (Z * Z) :=
  [(0, 0); (11, -1); (12, 0); (13, -1); (14, 0); (22, 0); (111, 0); (211, 1); (321, 1);
   (2112, 0); (2212, 1); (1000010020, 0); (1000010030, 0); (1000020030, 0);
   (1000020040, 0); (130, 0); (310, 0); (311, 0); (3122, 0); (-11, 1); (-12, 0);
   (-13, 1); (-14, 0); (-211, -1); (-321, -1); (-2112, 0); (-2212, -1); (-3122, 0)]%Z.

(** _common.py 95-108: units. *)
Definition units : list (string * R) :=
  [ ("", 1); ("mum", 0.001); ("mm", 1); ("cm", 10); ("m", 1000); ("km", 1000000);
    ("ns", 1); ("mus", 1000); ("ms", 1000000); ("s", 1000000000);
    ("eV", 0.000001); ("keV", 0.001); ("MeV", 1); ("GeV", 1000); ("TeV", 1000000);
    ("eV/c", 0.000001); ("keV/c", 0.001); ("MeV/c", 1); ("GeV/c", 1000);
    ("TeV/c", 1000000);
    ("eV/c2", 0.000001); ("keV/c2", 0.001); ("MeV/c2", 1); ("GeV/c2", 1000);
    ("TeV/c2", 1000000);
    ("Gauss", 0.0000001); ("mT", 0.000001); ("T", 0.001); ("kT", 1);
    ("V", 0.000001); ("kV", 0.001); ("MV", 1); ("GV", 1000);
    ("kHz", 0.000001); ("MHz", 0.001); ("GHz", 1);
    ("GV/m", 1); ("GV/mm", 1000);
    ("kW", 6241509.74); ("MW", 6241509740); ("GW", 6241509740000);
    ("degrees", 2 * 3.14159265 / 360); ("radians", 1); ("deg", 2 * 3.14159265 / 360); ("rad", 1);
    ("degree", 2 * 3.14159265 / 360); ("radian", 1);
    ("echarge", 1); ("Coulomb", 6241509740000000000) ]%R.

(** _hit.py 821-842: _default_var_types: the variables of type int; the others in the
    table, listed in [float_vars], are floats. *)
Definition int_vars : list string :=
  [ "eventNumber"; "event_number"; "particleNumber"; "particle_number"; "pid";
    "status"; "station" ].
Definition float_vars : list string :=
  [ "x"; "y"; "z"; "t"; "px"; "py"; "pz"; "energy"; "bx"; "by"; "bz"; "ex"; "ey"; "ez";
    "local_weight"; "sx"; "sy"; "sz"; "mass"; "path_length"; "proper_time"; "e_dep";
    "charge"; "p"; "r"; "phi"; "pt"; "pphi"; "x'"; "y'"; "t'"; "ct'"; "r'"; "spin";
    "weight"; "ct"; "r_squared"; "z'"; "kinetic_energy"; "l_kin"; "" ].

(** _hit.py 807-808: file_types without the MAUS root types, which need an optional
    package. *)
Definition file_types : list string :=
  [ "icool_for009"; "icool_for003"; "g4beamline_bl_track_file";
    "g4beamline_bl_track_file_2"; "mars_1"; "maus_json_virtual_hit";
    "maus_json_primary"; "maus_json_special_virtual_hit" ].

(** _hit.py 865-875 and _builtin_hit_factory.py 70-77 (the same for the listed types). *)
Definition file_formats : list (string * list string) :=
  [ ("icool_for009",
     [ "eventNumber"; "particleNumber"; "pid"; "status"; "station"; "t"; "x"; "y"; "z";
       "px"; "py"; "pz"; "bx"; "by"; "bz"; "local_weight"; "ex"; "ey"; "ez"; "";
       "sx"; "sy"; "sz" ]);
    ("icool_for003",
     [ "eventNumber"; "particleNumber"; "pid"; "status"; "t"; "local_weight";
       "x"; "y"; "z"; "px"; "py"; "pz"; "sx"; "sy"; "sz" ]);
    ("g4beamline_bl_track_file",
     [ "x"; "y"; "z"; "px"; "py"; "pz"; "t"; "pid"; "eventNumber"; "particleNumber"; "";
       "local_weight" ]);
    ("g4beamline_bl_track_file_2",
     [ "x"; "y"; "z"; "px"; "py"; "pz"; "t"; "pid"; "eventNumber"; "particleNumber"; "";
       "local_weight"; ""; ""; "" ]);
    ("mars_1",
     [ "eventNumber"; "pid"; "x"; "y"; "z"; "px"; "py"; "pz"; "energy"; "ct";
       "local_weight" ]) ].

(** _hit.py 876-891 and _builtin_hit_factory.py 79-89, the parameter being the entry for
    x, y, z of g4beamline_bl_track_file, which set_g4bl_unit (_hit.py 685-696) changes in
    the table of Hit only. *)
Definition file_units (g4 : string) : list (string * list (string * string)) :=
  let g4_rest := [ ("px", "MeV/c"); ("py", "MeV/c"); ("pz", "MeV/c"); ("t", "ns");
                   ("pid", ""); ("eventNumber", ""); ("station", "");
                   ("local_weight", ""); ("particleNumber", "") ] in
  [ ("icool_for009",
     [ ("eventNumber", ""); ("particleNumber", ""); ("pid", ""); ("status", "");
       ("station", ""); ("t", "s"); ("x", "m"); ("y", "m"); ("z", "m"); ("px", "GeV/c");
       ("py", "GeV/c"); ("pz", "GeV/c"); ("bx", "T"); ("by", "T"); ("bz", "T");
       ("local_weight", ""); ("ex", "GV/m"); ("ey", "GV/m"); ("ez", "GV/m"); ("sx", "");
       ("sy", ""); ("sz", ""); ("", "") ]);
    ("icool_for003",
     [ ("eventNumber", ""); ("particleNumber", ""); ("pid", ""); ("status", "");
       ("t", "s"); ("local_weight", ""); ("x", "m"); ("y", "m"); ("z", "m");
       ("px", "GeV/c"); ("py", "GeV/c"); ("pz", "GeV/c"); ("sx", ""); ("sy", "");
       ("sz", "") ]);
    ("g4beamline_bl_track_file", [ ("x", g4); ("y", g4); ("z", g4) ] ++ g4_rest);
    ("g4beamline_bl_track_file_2", [ ("x", "mm"); ("y", "mm"); ("z", "mm") ] ++ g4_rest);
    ("mars_1",
     [ ("eventNumber", ""); ("pid", ""); ("x", "mm"); ("y", "mm"); ("z", "mm");
       ("px", "GeV/c"); ("py", "GeV/c"); ("pz", "GeV/c"); ("energy", "GeV"); ("ct", "cm");
       ("local_weight", "") ]) ].

(** _builtin_hit_factory.py 91-95. *)
Definition file_mass_shell : list (string * string) :=
  [ ("icool_for009", "energy"); ("icool_for003", "energy");
    ("g4beamline_bl_track_file", "energy"); ("g4beamline_bl_track_file_2", "energy");
    ("mars_1", "energy") ].

Definition newline : string := String (Ascii.ascii_of_nat 10) "".

(** _hit.py 893-904: the headers, split at the only occurrence of '<user>'; [None] if
    the header has no '<user>'. *)
Definition file_headers : list (string * (string * option string)) :=
  let g4 := ("#BLTrackFile ", Some (newline ++
             "#x y z Px Py Pz t PDGid EvNum TrkId Parent weight" ++ newline)%string) in
  [ ("icool_for003",
     ("", Some (newline ++ "0. 0. 0. 0. 0. 0. 0. 0." ++ newline)%string));
    ("icool_for009",
     ("#", Some (newline ++ "#  units = [s] [m]  [GeV/c] [T] [V/m]" ++ newline ++
       "evt par typ  flg   reg    time        x           y           z           Px          Py          Pz          Bx          By          Bz          wt          Ex          Ey          Ez          arclength   polX        polY        polZ"
       ++ newline)%string));
    ("g4beamline_bl_track_file", g4); ("g4beamline_bl_track_file_2", g4);
    ("mars_1", ("", None)); ("maus_json_virtual_hit", ("", None));
    ("maus_json_primary", ("", None)) ].

(** bunch/_bunch.py 1906, for the types in [file_types]. *)
Definition number_of_header_lines : list (string * nat) :=
  [ ("icool_for009", 3); ("icool_for003", 2); ("g4beamline_bl_track_file", 0);
    ("g4beamline_bl_track_file_2", 0); ("mars_1", 0); ("maus_json_virtual_hit", 0);
    ("maus_json_primary", 0) ].
