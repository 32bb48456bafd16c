(** Vocabulary for the claims on batch queues: where words stand in texts, numerals, what a queue prints,
    which histories are considered.  Nothing here refers to the methods of BSubProcess. *)
From Coq Require Import ZArith String List Bool.
From Verif Require Import SubstModel TrackModel BatchModel.
Import ListNotations.
Open Scope list_scope.

(** [k] stands in [s] at position [n]; it does so nowhere before. *)
Definition stands (k s : Text) (n : nat) : Prop :=
  exists pre post, s = pre ++ k ++ post /\ List.length pre = n.
Definition first_stands (k s : Text) (n : nat) : Prop :=
  stands k s n /\ (forall m, stands k s m -> n <= m)%nat.

(** [r] is what stands behind the first [a] of [s] and before the [b] that comes first from there. *)
Definition between (s a b r : Text) : Prop :=
  exists pre post, s = pre ++ a ++ r ++ b ++ post /\
    first_stands a s (List.length pre) /\ first_stands b (r ++ b ++ post) (List.length r).

(** Decimal numerals. *)
Definition numeral (t : Text) (n : Z) : Prop :=
  t <> [] /\ Forall (fun c => (48 <= c <= 57)%Z) t /\
  fold_left (fun a c => (10 * a + (c - 48))%Z) t 0%Z = n.

(** A bsub that answers with the number of the job in angle brackets, the first of the text. *)
Definition clear_bsub (f : Z -> Text) : Prop :=
  forall id, (0 <= id)%Z -> exists pre num post,
    f id = pre ++ text "<" ++ num ++ text ">" ++ post /\ numeral num id /\
    ~ In 60%Z pre /\ ~ In 62%Z pre.

(** The words of the queue for the states of its jobs. *)
Definition word_of (s : JState) : Text :=
  match s with
  | Pending => text "PEND" | Running => text "RUN" | Waiting => text "WAIT"
  | Held w => w
  | Ended c => if Z.eqb c 0 then text "DONE" else text "EXIT"
  | Gone => []
  end.

(** Words for jobs the queue holds back. *)
Definition held_word (w : Text) : Prop :=
  ~ In 62%Z w /\ w <> text "PEND" /\ w <> text "RUN" /\ w <> text "WAIT".

(** A bjobs that prints the word of the state behind its first "Status <", unbroken, and the exit code of
    jobs that have failed, and of no others, behind "exit code " and before a full stop. *)
Definition clear_bjobs (f : Z -> JState -> Text) : Prop :=
  forall id s, s <> Gone -> (forall w, s = Held w -> held_word w) ->
    between (f id s) (text "Status <") (text ">") (word_of s) /\
    match s with
    | Ended c => if Z.eqb c 0 then forall n, ~ stands (text "exit code ") (f id s) n
                 else exists t, between (f id s) (text "exit code ") (text ".") t /\
                                (0 <= c -> numeral t c)%Z
    | _ => True
    end.

Section Spec.
Context {H V : Type}.

(** The events of a call. *)
Definition call_events (c : @BCall H V) : list (@QEvent V) :=
  match c with
  | BStart _ es _ => es
  | BJoin _ r _ => concat r
  | BGet _ e1 e2 => e1 ++ e2
  | BWait es => es
  | _ => []
  end.

(** No job is ever held back; jobs are held with proper words only. *)
Definition free_event (e : @QEvent V) : Prop := match e with Move _ (Held _) => False | _ => True end.
Definition proper_event (e : @QEvent V) : Prop :=
  match e with Move _ (Held w) => held_word w | _ => True end.
Definition unheld (l : list (@BCall H V)) : Prop := Forall (fun c => Forall free_event (call_events c)) l.
Definition proper (l : list (@BCall H V)) : Prop := Forall (fun c => Forall proper_event (call_events c)) l.

(** A job that may still run. *)
Definition unfinished (j : Job) : Prop := forall c, j_state j <> Ended c /\ j_state j <> Gone.
End Spec.
