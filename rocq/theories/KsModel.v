(** Model of Common.kolmogorov_smirnov_test, xboa/common/_common.py 804-820: the samples are sorted, copied to C arrays of
    doubles and handed to ROOT.TMath.KolmogorovTest (the parameter [root]: two lengths, two arrays).
    Simplified: the samples are floats already. *)
From Coq Require Import List Bool.
From Flocq Require Import Core BinarySingleNaN.
From Verif Require Import PyLibModel FloatModel Bin64Model.
Import ListNotations.

(** 813-818: a C array of [n] zeros filled from the list. *)
Definition c_array (n : nat) (l : list b64) : list b64 := map (fun i => nth i l fzero) (seq 0 n).

Section Ks.
  Variable root : nat -> list b64 -> nat -> list b64 -> b64.
  (** _common.py 804-820. *)
  Definition ks_test (list_1 list_2 : list b64) : b64 :=
    let list_1 := sort flt list_1 in
    let list_2 := sort flt list_2 in
    root (length list_1) (c_array (length list_1) list_1) (length list_2) (c_array (length list_2) list_2).
End Ks.
