(** Vocabulary for the ellipse and emittance properties. *)
From Coq Require Import Reals ZArith List String.
From Verif Require Import Num HitcoreModel HitcoreSpec BunchModel BunchSpec HitPyModel HitPySpec CommonSpec MomentSpec.
Import ListNotations.
Open Scope R_scope.

Definition symmetric (d : nat) (m : list (list R)) : Prop :=
  forall i j, (i < d)%nat -> (j < d)%nat -> ent m i j = ent m j i.

(** An ellipse: a symmetric positive definite matrix. *)
Definition ellipse (d : nat) (m : list (list R)) : Prop := symmetric d m /\ positive_definite d m.

(** Determinants of two by two matrices. *)
Definition det2 (m : list (list R)) : R := ent m 0 0 * ent m 1 1 - ent m 0 1 * ent m 1 0.

(** Speed of light in mm/ns. *)
Definition light : R := 299.792458.

(** The names of the axes with their momenta, and with their slopes. *)
Definition momenta : list (string * string) :=
  [("x", "px"); ("y", "py"); ("z", "pz"); ("t", "energy"); ("ct", "energy")]%string.
Definition slopes : list (string * string) :=
  [("x", "x'"); ("y", "y'"); ("z", "z'"); ("t", "t'"); ("ct", "ct'")]%string.
Definition conjugates (geometric : bool) : list (string * string) :=
  if geometric then slopes else momenta.

(** Interleaved list of positions and momenta: a0, m0, a1, m1, ... *)
Inductive paired (geometric : bool) : list string -> list string -> Prop :=
| paired_nil : paired geometric [] []
| paired_cons : forall a m axes l, In (a, m) (conjugates geometric) ->
    paired geometric axes l -> paired geometric (a :: axes) (a :: m :: l).

(** A Python int that fits into a C int. *)
Definition small (z : Z) : Prop := (-2147483648 <= z < 2147483648)%Z.

(** A dict whose keys are distinct stored variables, with numbers of the right type. *)
Definition stored_dict (d : list (string * PyVal RNum)) : Prop :=
  NoDup (map fst d) /\
  forall k v, In (k, v) d ->
    (In k stored_floats /\ exists x, v = @PFloat RNum x) \/
    (In k stored_ints /\ exists z, v = PInt z /\ small z).

(** Variable k of a hit made from a dict: the entry, or the value of a new hit. *)
Fixpoint dict_value (d : list (string * PyVal RNum)) (k : string) : R :=
  match d with
  | [] => if String.eqb k "local_weight" then 1 else 0
  | (k', v) :: r => if String.eqb k' k then real_of v else dict_value r k
  end.

(** The documented order of the covariance matrix kept by set_covariance_matrix. *)
Definition stored_order : list string :=
  ["x"; "px"; "y"; "py"; "z"; "pz"; "t"; "energy"; "ct"; "energy"]%string.

(** A bunch for which statistics can be calculated: the weight context was never switched,
    the two lists of hits agree, the hits exist and their weights do not add up to zero. *)
Definition usable (w : World RNum) (b : Bunch) : Prop :=
  w_cur w = 0%nat /\ in_step b /\ has_weight w (b_hits b).

(** Deviation from the mean, and covariance, of two variables over the bunch. *)
Definition deviation (w : World RNum) (hits : list nat) (val : string -> nat -> R) (v : string) (l : nat) : R :=
  val v l - average w hits (val v).
Definition covariance (w : World RNum) (hits : list nat) (val : string -> nat -> R) (u v : string) : R :=
  average w hits (fun l => deviation w hits val u l * deviation w hits val v l).

(** The mass the code divides by: that of the first hit. *)
Definition bunch_mass (w : World RNum) (b : Bunch) : R := stored_val w "mass" (hd 0%nat (b_hits b)).

(** The covariances of a list of variables, as a matrix. *)
Definition covariances (w : World RNum) (hits : list nat) (val : string -> nat -> R) (vars : list string)
  : nat -> nat -> R :=
  fun i j => covariance w hits val (nth i vars ""%string) (nth j vars ""%string).
