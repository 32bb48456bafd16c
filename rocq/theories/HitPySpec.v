(** Vocabulary for the numerical properties of hits. *)
From Coq Require Import Reals List String.
From Verif Require Import Num HitcoreModel HitcoreSpec HitPyModel.
Import ListNotations.
Open Scope R_scope.

(** E^2 = p^2 + m^2. *)
Definition on_shell (h : RHit) : Prop :=
  h_dbl h Venergy * h_dbl h Venergy =
  (h_dbl h Vpx * h_dbl h Vpx + h_dbl h Vpy * h_dbl h Vpy + h_dbl h Vpz * h_dbl h Vpz
   + h_dbl h Vmass * h_dbl h Vmass).

(** Every member except those listed is the same. *)
Definition same_except (vs : list DblVar) (h h' : RHit) : Prop :=
  (forall v, ~ In v vs -> h_dbl h' v = h_dbl h v) /\ (forall i, h_int h' i = h_int h i).

Definition same (h h' : RHit) : Prop := same_except [] h h'.

(** The entry of a dict of floats, 0 if absent. *)
Fixpoint entry (d : list (string * R)) (k : string) : R :=
  match d with
  | [] => 0
  | (k', x) :: r => if String.eqb k' k then x else entry r k
  end.

(** A dict of floats as a Python dict. *)
Definition floats (d : list (string * R)) : list (string * RVal) :=
  map (fun kv => (fst kv, PFloat (snd kv : RNum))) d.

(** A dict whose keys are distinct stored float variables. *)
Definition float_dict (d : list (string * R)) : Prop :=
  NoDup (map fst d) /\ forall k, In k (map fst d) -> In k stored_floats.

(** Variable k of the hit is the float x. *)
Definition reads (s : PSt) (k : string) (x : R) : Prop :=
  py_get s k = inr (PFloat (x : RNum)).

(** Two states of a hit that agree in all stored variables. *)
Definition reads_same (s s' : PSt) : Prop :=
  forall k, stored k -> py_get s' k = py_get s k.

(** ---- vectors and matrices ---- *)
Definition square (n : nat) (m : list (list R)) : Prop :=
  List.length m = n /\ forall row, In row m -> List.length row = n.

(** Entry i,j; rows and columns counted from 0. *)
Definition ent (m : list (list R)) (i j : nat) : R := nth j (nth i m []) 0.

(** Sum of f 0 .. f (n-1). *)
Fixpoint sum_n (n : nat) (f : nat -> R) : R :=
  match n with O => 0 | S k => sum_n k f + f k end.

(** [prod n a b c]: c is the matrix product a b of n by n matrices. *)
Definition is_product (n : nat) (a b c : list (list R)) : Prop :=
  forall i j, (i < n)%nat -> (j < n)%nat ->
    ent c i j = sum_n n (fun k => ent a i k * ent b k j).

Definition is_identity (n : nat) (m : list (list R)) : Prop :=
  forall i j, (i < n)%nat -> (j < n)%nat -> ent m i j = if Nat.eqb i j then 1 else 0.
