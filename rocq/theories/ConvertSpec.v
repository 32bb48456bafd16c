(** Vocabulary for the file converter: what the lines of a control file say. *)
From Coq Require Import Reals List String Ascii.
Import ListNotations.
Open Scope string_scope.
Open Scope list_scope.
Open Scope R_scope.

(** Text: blanks, words of printed characters other than # and !, and lines that hold given words. *)
Fixpoint every (P : ascii -> Prop) (s : string) : Prop :=
  match s with "" => True | String a r => P a /\ every P r end.
Definition blank (a : ascii) : Prop := In a [" "; "009"; "010"; "013"]%char.
Definition printed (a : ascii) : Prop := (33 < N_of_ascii a < 127)%N /\ a <> "#"%char.
Inductive holds : list string -> string -> Prop :=
| holds_end b : every blank b -> holds [] b
| holds_last b s : every blank b -> s <> "" -> every printed s -> holds [s] (b ++ s)%string
| holds_word b s c ws r : every blank b -> s <> "" -> every printed s -> blank c -> holds ws r ->
    holds (s :: ws) (b ++ s ++ String c r)%string.

(** The lines that begin with a keyword. *)
Definition lines_with (k : string) (ls : list (list string)) : list (list string) :=
  filter (fun l => match l with a :: _ => String.eqb a k | [] => false end) ls.
Definition keywords : list string :=
  ["file_in"; "format_in"; "station_in"; "file_out"; "format_out"; "rotate"; "origin"; "covariance"; "translate";
   "mass_shell_condition"; "histogram_in"; "histogram_out"; "scatter_in"; "scatter_out"].
Definition plot_keywords : list string := ["histogram_in"; "histogram_out"; "scatter_in"; "scatter_out"].

(** The word after a keyword, on the last line with the keyword; [d] without such a line. *)
Definition setting_of (ls : list (list string)) (k d v : string) : Prop :=
  (lines_with k ls = [] /\ v = d) \/
  exists r l, lines_with k ls = r ++ [l] /\ nth_error l 1 = Some v.

(** Pairs of words; the last one for a variable counts. *)
Fixpoint pairs (ws : list string) : list (string * string) :=
  match ws with a :: b :: r => (a, b) :: pairs r | _ => [] end.
Definition latest (ps : list (string * string)) (v : string) (o : option string) : Prop :=
  match o with
  | None => ~ In v (map fst ps)
  | Some s => exists p q, ps = p ++ (v, s) :: q /\ ~ In v (map fst q)
  end.
Definition value_of (flt : string -> option R) (ps : list (string * string)) (v : string) (x : R) : Prop :=
  exists o, latest ps v o /\ match o with None => x = 0 | Some s => flt s = Some x end.

(** translate <variable> <value> <variable> <value> ... *)
Definition shifts (ls : list (list string)) : list (string * string) :=
  flat_map (fun l => pairs (tl l)) (lines_with "translate" ls).
(** origin <variable> <value> *)
Definition origins (ls : list (list string)) : list (string * string) :=
  flat_map (fun l => pairs (firstn 2 (tl l))) (lines_with "origin" ls).
(** rotate <variable> <variable> ... *)
Definition rotated (ls : list (list string)) : list string := flat_map (@tl string) (lines_with "rotate" ls).

(** covariance <variable> <variable> <value>, in either order. *)
Definition names (a b : string) (l : list string) : Prop :=
  (nth_error l 1 = Some a /\ nth_error l 2 = Some b) \/ (nth_error l 1 = Some b /\ nth_error l 2 = Some a).
Definition target_at (flt : string -> option R) (ls : list (list string)) (a b : string) (x : R) : Prop :=
  ((forall l, In l (lines_with "covariance" ls) -> ~ names a b l) /\ x = 0) \/
  exists p l q s, lines_with "covariance" ls = p ++ l :: q /\ names a b l /\ nth_error l 3 = Some s /\
    flt s = Some x /\ forall l', In l' q -> ~ names a b l'.
