(** Model of the methods of Bunch that change coordinates or use square roots, over the
    reals.  Source: xboa/bunch/_bunch.py. *)
From Coq Require Import Reals ZArith List Bool String.
From Verif Require Import Num WeightModel HitcoreModel PyLibModel BunchModel HitPyModel MomentModel.
Import ListNotations.
Open Scope string_scope.
Open Scope list_scope.
Open Scope R_scope.

Notation RWorld := (World RNum).

(** A method of Hit called on the hit at location l. *)
Definition on_hit (f : PSt -> PSt * option PyErr) (w : RWorld) (l : nat)
  : RWorld * option PyErr :=
  match w_hits w l with
  | Some h => let (s, e) := f (h, cur_ctx w) in
              (with_hit (with_cur w (snd s)) l (fst s), e)
  | None => (w, None)
  end.

(** [for hit in self.__hits: f(hit)], left at the first exception. *)
Fixpoint on_hits (f : PSt -> PSt * option PyErr) (w : RWorld) (hs : list nat)
  : RWorld * option PyErr :=
  match hs with
  | [] => (w, None)
  | l :: r => match on_hit f w l with
              | (w', None) => on_hits f w' r
              | (w', Some e) => (w', Some e)
              end
  end.

(** _bunch.py 489-501: translate. *)
Definition bunch_translate (w : RWorld) (b : Bunch) (d : list (string * RVal)) (ms : string)
  : RWorld * option PyErr := on_hits (fun s => translate s d ms) w (b_hits b).

(** _bunch.py 503-525: abelian_transformation. *)
Definition bunch_abelian (w : RWorld) (b : Bunch) (ks : list string) (m : list (list R))
    (trans origin : list (string * R)) (ms : string) : RWorld * option PyErr :=
  on_hits (fun s => abelian s ks m trans origin ms) w (b_hits b).

(** _bunch.py 562-578: period_transformation. *)
Definition bunch_period (w : RWorld) (b : Bunch) (offset freq : R) (k : string)
  : RWorld * option PyErr :=
  on_hits (fun s => period_hit s offset freq k) w (b_hits b).

Section Num.
  Variable extra : RWorld -> list nat -> string -> nat -> option RVal.

  (** x ** 0.5 of a float: [None] is a complex number. *)
  Definition pow_half (x : R) : option R := py_sqrt x.

  (** The dict {v: mean([v])[v]}. *)
  Definition variance (fx : Fixed RNum) (w : RWorld) (b : Bunch) (v : string) : MErr + R :=
    match mean extra fx w b [v] with
    | inr d => moment extra fx w b [v; v] d
    | inl e => inl e
    end.

  (** _bunch.py 644-668: standard_deviation(variable, self.mean([variable])). *)
  Definition standard_deviation (fx : Fixed RNum) (w : RWorld) (b : Bunch) (v : string)
    : MErr + option R :=
    match variance fx w b v with
    | inr x => inr (pow_half x)
    | inl e => inl e
    end.

  (** _bunch.py 832-833: the cut value of cut with value_is_nsigma_bool.  [None]: an
      exception, or a complex cut value, which no comparator accepts. *)
  Definition cut_nsigma (w : RWorld) (b : Bunch) (v : string) (c : R) : option R :=
    match variance no_fixed w b v with
    | inr x => option_map (Rmult c) (pow_half x)
    | inl _ => None
    end.

  (** _bunch.py 629-630: the cut value of conditional_remove with value_is_nsigma_bool. *)
  Definition remove_nsigma (w : RWorld) (b : Bunch) (v : string) (c : R) : option R :=
    match standard_deviation no_fixed w b v with
    | inr (Some x) => option_map (Rmult c) (pow_half x)
    | _ => None
    end.
End Num.
