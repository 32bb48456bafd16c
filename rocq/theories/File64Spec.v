(** Copies of hits through text files in double precision (C93). *)
From Coq Require Import Reals ZArith Bool String List.
From Flocq Require Import Core BinarySingleNaN.
From Verif Require Import Num HitcoreModel FloatModel Bin64Spec Shell64Model Shell64Spec File64Model.
Import ListNotations.
Open Scope string_scope.
Open Scope R_scope.

(** Zero, or neither huge nor tiny. *)
Definition tame (x : b64) : Prop :=
  finite x = true /\ (value x = 0 \/ / 2 ^ 250 <= Rabs (value x) <= 2 ^ 250).

(** A hit that a file can hold: tame numbers, and integers of 32 bits. *)
Definition tame_hit (h : FHit) : Prop :=
  (forall v, tame (h_dbl (N := B64Num) h v)) /\ (forall i, (Z.abs (h_int (N := B64Num) h i) <= 2 ^ 31)%Z).

(** The numbers in a line of a format, and those of them whose unit is that of xboa. *)
Definition in_file (fmt : string) : list DblVar :=
  if String.eqb fmt "icool_for009" then
    [Vt; Vx; Vy; Vz; Vpx; Vpy; Vpz; Vbx; Vby; Vbz; Vlocal_weight; Vex; Vey; Vez; Vsx; Vsy; Vsz]
  else if String.eqb fmt "icool_for003" then [Vt; Vlocal_weight; Vx; Vy; Vz; Vpx; Vpy; Vpz; Vsx; Vsy; Vsz]
  else [Vx; Vy; Vz; Vpx; Vpy; Vpz; Vt; Vlocal_weight].
Definition same_unit (fmt : string) : list DblVar :=
  if String.eqb fmt "icool_for009" then [Vlocal_weight; Vex; Vey; Vez; Vsx; Vsy; Vsz]
  else if String.eqb fmt "icool_for003" then [Vlocal_weight; Vsx; Vsy; Vsz]
  else if String.eqb fmt "mars_1" then [Vx; Vy; Vz; Vlocal_weight]
  else [Vx; Vy; Vz; Vpx; Vpy; Vpz; Vt; Vlocal_weight].
Definition ints_in_file (fmt : string) : list IntVar :=
  if String.eqb fmt "icool_for009" then [Ievent; Iparticle; Ipid; Istatus; Istation]
  else if String.eqb fmt "icool_for003" then [Ievent; Iparticle; Ipid; Istatus]
  else if String.eqb fmt "mars_1" then [Ievent; Ipid]
  else [Ievent; Iparticle; Ipid].

(** The hit h' is read from the line written for h. *)
Definition copied (L : PowLib) (fmt : string) (h h' : FHit) : Prop :=
  exists line, write64 fmt h = inr line /\ read64 L fmt line = inr h'.
(** ... or n times over. *)
Inductive copied_times (L : PowLib) (fmt : string) : nat -> FHit -> FHit -> Prop :=
| copied_0 : forall h, copied_times L fmt 0 h h
| copied_S : forall n h h' h'', copied_times L fmt n h h' -> copied L fmt h' h'' -> copied_times L fmt (S n) h h''.
