(** Linear transformations of hits in double precision (C98). *)
From Coq Require Import Reals ZArith Bool String List.
From Flocq Require Import Core BinarySingleNaN.
From Verif Require Import Num HitcoreModel FloatModel Bin64Spec Shell64Model Shell64Spec.
Import ListNotations.
Open Scope R_scope.

(** The scalar product of numbers. *)
Fixpoint inner (a b : list R) : R :=
  match a, b with
  | x :: a', y :: b' => x * y + inner a' b'
  | _, _ => 0
  end.

(** Zero, or neither huge nor tiny. *)
Definition usual (x : b64) : Prop :=
  finite x = true /\ (value x = 0 \/ / 2 ^ 200 <= Rabs (value x) <= 2 ^ 200).

(** A scalar product of doubles is off by a few units in the last place of the sum of the sizes, whatever order it
    adds up in. *)
Definition good_dot (dot : list b64 -> list b64 -> b64) : Prop :=
  forall a b, List.length a = List.length b -> (List.length a <= 100)%nat -> Forall usual a -> Forall moderate b ->
    finite (dot a b) = true /\
    Rabs (value (dot a b) - inner (map value a) (map value b)) <=
      4 * INR (List.length a) * / 2 ^ 53 * inner (map Rabs (map value a)) (map Rabs (map value b)).

(** The number a dictionary gives for a variable: zero where it has none. *)
Definition gives (d : list (DblVar * b64)) (k : DblVar) (x : R) : Prop :=
  (exists v, In (k, v) d /\ x = value v) \/ (~ In k (map fst d) /\ x = 0).

(** The row of R (V - O) + T + O for variable k, and the sum of the sizes of its terms. *)
Definition linear (h : FHit) (ks : list DblVar) (row : list b64) (T O : DblVar -> R) (k : DblVar) : R :=
  inner (map value row) (map (fun j => of_hit h j - O j) ks) + T k + O k.
Definition sizes (h : FHit) (ks : list DblVar) (row : list b64) (T O : DblVar -> R) (k : DblVar) : R :=
  inner (map Rabs (map value row)) (map (fun j => Rabs (of_hit h j) + Rabs (O j)) ks) + Rabs (T k) + Rabs (O k).

(** Row i of the identity matrix of size n. *)
Definition unit_row (one zero : b64) (n i : nat) : list b64 := map (fun j => if Nat.eqb i j then one else zero) (seq 0 n).

(** A transformation whose shapes fit and whose numbers are usual: V -> R (V - O) + T + O. *)
Record fits (ks : list DblVar) (m : list (list b64)) (trans origin : list (DblVar * b64)) (T O : DblVar -> R) : Prop :=
  { fits_vars : NoDup ks;
    fits_rows : List.length m = List.length ks;
    fits_row : Forall (fun row => List.length row = List.length ks /\ Forall usual row) m;
    fits_keys : NoDup (map fst trans) /\ NoDup (map fst origin);
    fits_usual : Forall (fun q => usual (snd q)) trans /\ Forall (fun q => usual (snd q)) origin;
    fits_T : forall k, gives trans k (T k);
    fits_O : forall k, gives origin k (O k) }.

(** The hit h' is h transformed, up to rounding; what is not in the vector is as it was. *)
Definition transformed (ks : list DblVar) (m : list (list b64)) (T O : DblVar -> R) (h h' : FHit) : Prop :=
  (forall i k row, nth_error ks i = Some k -> nth_error m i = Some row ->
     finite (h_dbl (N := B64Num) h' k) = true /\
     Rabs (of_hit h' k - linear h ks row T O k) <= (4 * INR (List.length ks) + 4) * / 2 ^ 53 * sizes h ks row T O k) /\
  others_kept ks h h'.
