(** What replacing words in a text means, independent of the code. *)
From Coq Require Import ZArith List.
Import ListNotations.
Open Scope list_scope.

(** [k] stands at position [i] of [s]. *)
Definition at_pos (k s : list Z) (i : nat) : Prop := exists r, skipn i s = k ++ r.

(** [t] is [s] with the occurrences of [k] replaced by [v], from left to right and without overlap. *)
Inductive replaced (k v : list Z) : list Z -> list Z -> Prop :=
| rep_none s : (forall i, ~ at_pos k s i) -> replaced k v s s
| rep_first p r t : (forall i, (i < length p)%nat -> ~ at_pos k (p ++ k ++ r) i) -> replaced k v r t ->
    replaced k v (p ++ k ++ r) (p ++ v ++ t).

(** One word after the other. *)
Inductive replaced_all : list (list Z * list Z) -> list Z -> list Z -> Prop :=
| all_nil s : replaced_all [] s s
| all_cons k v d s t u : replaced k v s t -> replaced_all d t u -> replaced_all ((k, v) :: d) s u.

(** A template: plain text and words, and what it becomes if the words have values. *)
Inductive Token := Plain (p : list Z) | Word (k : list Z).
Definition written (toks : list Token) : list Z :=
  concat (map (fun t => match t with Plain p => p | Word k => k end) toks).
Definition filled (val : list Z -> list Z) (toks : list Token) : list Z :=
  concat (map (fun t => match t with Plain p => p | Word k => val k end) toks).

(** Words that begin with a mark which they do not contain otherwise, none the beginning of another. *)
Definition marked (c : Z) (k : list Z) : Prop := exists b, k = c :: b /\ ~ In c b /\ ~ In 10%Z k.
Definition prefix_free (ks : list (list Z)) : Prop :=
  forall k1 k2 r, In k1 ks -> In k2 ks -> k1 ++ r = k2 -> k1 = k2.

(** The text as a file with DOS line ends. *)
Definition dos (t : list Z) : list Z := flat_map (fun c => if Z.eqb c 10 then [13; 10]%Z else [c]) t.
