(** Vocabulary for tracking in subprocesses. *)
From Coq Require Import ZArith List Bool.
From Verif Require Import TrackModel.
Import ListNotations.
Open Scope list_scope.

Section Spec.
Context {H T : Type}.
Notation SysHT := (@Sys H T).
Notation CallH := (@Call H).

(** The output directory of object i. *)
Definition out_dir (s : SysHT) (i : nat) : option nat :=
  option_map p_dir (nth_error (procs s) i).

(** The child last started by object i. *)
Definition child (s : SysHT) (i : nat) : option nat :=
  match nth_error (procs s) i with Some p => p_child p | None => None end.

(** Child k has ended. *)
Definition ended (s : SysHT) (k : nat) : Prop :=
  exists kid c, nth_error (kids s) k = Some kid /\ k_phase kid = Exited c.

(** Child k was started and has not ended. *)
Definition running (s : SysHT) (k : nat) : Prop :=
  exists kid, nth_error (kids s) k = Some kid /\ forall c, k_phase kid <> Exited c.

(** The output file in directory d. *)
Definition output (s : SysHT) (d : nat) : option (@File (list T)) :=
  match nth_error (dirs s) d with Some x => sandwich x | None => None end.

(** In the history p, set_hit_list(h) was called for an object whose output directory was d. *)
Definition set_in (dl : Dialect) (track : list H -> option (list T)) (p : list CallH)
    (d : nat) (h : list H) : Prop :=
  exists p1 i es p2, p = p1 ++ SetHits i h es :: p2 /\
                     out_dir (calls dl track p1) i = Some d.

(** No new_out_dir of object i in p. *)
Definition keeps_dir (p : list CallH) (i : nat) : Prop := ~ In (NewOutDir i) p.

(** Child k does not die, other than by reaching the end of its script. *)
Definition survives (k : nat) (es : list Event) : Prop := forall c, ~ In (Die k c) es.

(** How often child k moves. *)
Definition moves (k : nat) (es : list Event) : nat :=
  List.length (filter (fun e => match e with Step k' => Nat.eqb k' k | Die _ _ => false end) es).

(** No child dies, other than by reaching the end of its script. *)
Definition calm (es : list Event) : Prop := forall k c, ~ In (Die k c) es.
Definition calm_pass (x : Pass) : Prop :=
  calm (fst (fst (fst x))) /\ calm (snd (fst (fst x))) /\ calm (snd (fst x)).
Definition calm_pair (x : list Event * list Event) : Prop := calm (fst x) /\ calm (snd x).

(** v consists of the results of some of the chunks, in order, each complete. *)
Inductive selected (track : list H -> option (list T)) : list (list H) -> list T -> Prop :=
| sel_nil : selected track [] []
| sel_take : forall h v l r, track h = Some v -> selected track l r ->
    selected track (h :: l) (v ++ r)
| sel_skip : forall h l r, selected track l r -> selected track (h :: l) r.

(** The tracking object tracks hit by hit. *)
Definition elementwise (track : list H -> option (list T)) (one : H -> T) : Prop :=
  forall l, track l = Some (map one l).

(** Sizes differ by at most one. *)
Definition balanced (l : list (list H)) : Prop :=
  forall a b, In a l -> In b l -> List.length a <= S (List.length b).

End Spec.
