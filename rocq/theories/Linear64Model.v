(** Model of Hit.abelian_transformation (xboa/hit/_hit.py 262-288) in double precision.

    Simplified: the variables are those the core stores as doubles; a dictionary is the list of its items; the
    matrix is the list of its rows.  In which order numpy adds the products of a row and the vector, and whether it
    rounds each product, depends on how it was built: the scalar product is a parameter. *)
From Coq Require Import ZArith List Bool String.
From Flocq Require Import BinarySingleNaN.
From Verif Require Import Num WeightModel HitcoreModel FloatModel Bin64Model Shell64Model.
Import ListNotations.
Open Scope string_scope.

(** _hit.py 277-281: the entry, or the integer 0 where there is none. *)
Definition entry64 (d : list (DblVar * b64)) (k : DblVar) : b64 :=
  match find (fun q => if dblvar_eq_dec (fst q) k then true else false) d with
  | Some q => snd q
  | None => fzero
  end.

(** A scalar product adding up from the left, each step rounded. *)
Fixpoint dot_from (s : b64) (a b : list b64) : b64 :=
  match a, b with
  | x :: a', y :: b' => dot_from (fadd s (fmul x y)) a' b'
  | _, _ => s
  end.
Definition dot_plain : list b64 -> list b64 -> b64 := dot_from fzero.

Inductive ARes := AValueError | AIndexError | AShell (r : ShRes).

(** _hit.py 275, 280-281: the vector, less the origin. *)
Definition centred (h : FHit) (ks : list DblVar) (origin : list (DblVar * b64)) : list b64 :=
  map (fun k => fsub (fg h k) (entry64 origin k)) ks.

(** _hit.py 283-284: the loop that stores; False where the vector is too short. *)
Fixpoint put_back (h : FHit) (ks : list DblVar) (v : list b64) (trans origin : list (DblVar * b64)) : FHit * bool :=
  match ks, v with
  | [], _ => (h, true)
  | _ :: _, [] => (h, false)
  | k :: r, x :: v' => put_back (fs h k (fadd (fadd x (entry64 trans k)) (entry64 origin k))) r v' trans origin
  end.

(** _hit.py 262-288. *)
Definition abelian64 (L : PowLib) (dot : list b64 -> list b64 -> b64) (ks : list DblVar) (m : list (list b64))
           (trans origin : list (DblVar * b64)) (ms : string) (h : FHit) : FHit * ARes :=
  let v := centred h ks origin in
  if forallb (fun row => Nat.eqb (List.length row) (List.length v)) m then
    match put_back h ks (map (fun row => dot row v) m) trans origin with
    | (h', false) => (h', AIndexError)
    | (h', true) => let '(h2, r) := mass_shell64 L h' ms in (h2, AShell r)
    end
  else (h, AValueError).

(** xboa/bunch/_bunch.py 503-525: all hits of a bunch, until one raises. *)
Fixpoint abelian_all64 (L : PowLib) (dot : list b64 -> list b64 -> b64) (ks : list DblVar) (m : list (list b64))
         (trans origin : list (DblVar * b64)) (ms : string) (hs : list FHit) : list FHit * option ARes :=
  match hs with
  | [] => ([], None)
  | h :: r =>
      match abelian64 L dot ks m trans origin ms h with
      | (h', AValueError) => (h' :: r, Some AValueError)
      | (h', AIndexError) => (h' :: r, Some AIndexError)
      | (h', AShell (ShErr e)) => (h' :: r, Some (AShell (ShErr e)))
      | (h', AShell _) => let '(r', e) := abelian_all64 L dot ks m trans origin ms r in (h' :: r', e)
      end
  end.
