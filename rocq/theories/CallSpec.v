(** Vocabulary for calls with positional and keyword arguments, independent of the code. *)
From Coq Require Import ZArith String List Permutation.
From Verif Require Import Num HitcoreModel.
Import ListNotations.
Open Scope string_scope.
Open Scope list_scope.

(** [args], [kw] passes the values [vals], the first few by position and the others under the names
    [names], in any order. *)
Definition passes {V : Type} (names : list string) (vals args : list V) (kw : list (string * V)) : Prop :=
  exists k, (k <= List.length vals)%nat /\ args = firstn k vals /\
    Permutation kw (skipn k (combine names vals)).

(** The two spellings of the keywords. *)
Definition event_name (k : string) : Prop := k = "event_number" \/ k = "eventNumber".
Definition particle_name (k : string) : Prop := k = "particle_number" \/ k = "particleNumber".

(** An int of C. *)
Definition c_int (z : Z) : Prop := (-2147483648 <= z < 2147483648)%Z.
(** Python integers that are one. *)
Definition is_c_int {N : NumOps} (v : PyVal N) : Prop := exists z, v = PInt z /\ c_int z.
