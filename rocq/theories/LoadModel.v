(** Model of loading the bunches of files, one for each value of a variable.
    Source: xboa/bunch/_bunch.py 184-340; reading of lines is in IOModel, split in BunchModel. *)
From Coq Require Import Reals ZArith List Bool String.
From Verif Require Import Num WeightModel HitcoreModel PyLibModel HitPyModel TableModel
  BunchModel BunchNumModel IOModel.
Import ListNotations.
Open Scope string_scope.
Open Scope list_scope.

(** 335-336: the hit object that was read, appended to the bunch.  (Reading a line creates one more
    object for each line that fails or does not pass the test; these are garbage and not modelled.) *)
Definition load_hit (w : RWorld) (b : Bunch) (h : RHit) : RWorld * Bunch :=
  (mkWorld (fupd (w_hits w) (w_next w) h) (S (w_next w)) (w_store w) (w_cur w), append b (w_next w)).
Fixpoint load_hits (w : RWorld) (b : Bunch) (hs : list RHit) : RWorld * Bunch :=
  match hs with
  | [] => (w, b)
  | h :: r => let (w', b') := load_hit w b h in load_hits w' b' r
  end.

(** 276-340: new_from_read_builtin for the text formats, as an operation of the program; [files] are
    the contents of the files that match, in the order of glob. *)
Definition load_bunch (fmt : string) (w : RWorld) (test : RHit -> bool) (n : Z) (files : list (list Line))
  : RWorld * (IOErr + Bunch) :=
  match new_from_read_builtin fmt (cur_ctx w) test n files with
  | inl e => (w, inl e)
  | inr hs => let (w', b) := load_hits w bunch_new hs in (w', inr b)
  end.

(** The exception is that of reading, or of split. *)
Inductive LoadErr := LRead (e : IOErr) | LSplit.

(** int(value). *)
Definition int_value (v : RVal) : Z :=
  match v with PInt z => z | PFloat x => trunc x | _ => 0%Z end.

Section Load.
  Variable extra : RWorld -> list nat -> string -> nat -> option RVal.

  (** 184-214: new_dict_from_read_builtin. *)
  Definition new_dict_from_read_builtin (fmt : string) (w : RWorld) (files : list (list Line))
      (variable : string) (test : RHit -> bool) : RWorld * (LoadErr + list (Z * Bunch)) :=
    match load_bunch fmt w test (-1) files with
    | (w', inl e) => (w', inl (LRead e))
    | (w', inr b) => match split extra int_value w' b variable with
                     | Some d => (w', inr d)
                     | None => (w', inl LSplit)
                     end
    end.

  (** 241-273: new_list_from_read_builtin. *)
  Definition new_list_from_read_builtin (fmt : string) (w : RWorld) (files : list (list Line))
      (variable : string) (test : RHit -> bool) : RWorld * (LoadErr + list Bunch) :=
    match new_dict_from_read_builtin fmt w files variable test with
    | (w', inl e) => (w', inl e)
    | (w', inr d) => (w', inr (bunch_list d))
    end.
End Load.
