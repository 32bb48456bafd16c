(** The parts of the Python standard library that the package relies on: list.sort and
    the bisect module.  Both take the comparison "<" of the elements. *)
From Coq Require Import List Bool Arith.
Import ListNotations.

(** list.sort(key=...) and sorted: a stable sort that only uses "<".  Modelled by
    insertion sort: an element is placed before the first element that is not smaller,
    starting from the end of the list, which keeps equal elements in order. *)
Fixpoint insert {A} (ltb : A -> A -> bool) (x : A) (l : list A) : list A :=
  match l with
  | [] => [x]
  | y :: r => if ltb y x then y :: insert ltb x r else x :: l
  end.

Fixpoint sort {A} (ltb : A -> A -> bool) (l : list A) : list A :=
  match l with
  | [] => []
  | x :: r => insert ltb x (sort ltb r)
  end.

(** bisect.bisect_left (CPython Lib/bisect.py): [lo] and [hi] as in the library; the
    first argument bounds the number of rounds, the length of the list is enough. *)
Fixpoint bisect_left_loop {A} (ltb : A -> A -> bool) (l : list A) (x : A)
    (fuel lo hi : nat) : nat :=
  match fuel with
  | 0 => lo
  | S f =>
      if lo <? hi then
        let mid := (lo + hi) / 2 in
        match nth_error l mid with
        | Some y => if ltb y x then bisect_left_loop ltb l x f (S mid) hi
                    else bisect_left_loop ltb l x f lo mid
        | None => lo
        end
      else lo
  end.

Definition bisect_left {A} (ltb : A -> A -> bool) (l : list A) (x : A) : nat :=
  bisect_left_loop ltb l x (length l) 0 (length l).

(** bisect.bisect_right. *)
Fixpoint bisect_right_loop {A} (ltb : A -> A -> bool) (l : list A) (x : A)
    (fuel lo hi : nat) : nat :=
  match fuel with
  | 0 => lo
  | S f =>
      if lo <? hi then
        let mid := (lo + hi) / 2 in
        match nth_error l mid with
        | Some y => if ltb x y then bisect_right_loop ltb l x f lo mid
                    else bisect_right_loop ltb l x f (S mid) hi
        | None => lo
        end
      else lo
  end.

Definition bisect_right {A} (ltb : A -> A -> bool) (l : list A) (x : A) : nat :=
  bisect_right_loop ltb l x (length l) 0 (length l).

(** Python comparison "<" of two lists of numbers: lexicographic. *)
Fixpoint lex_ltb {A} (eqb ltb : A -> A -> bool) (a b : list A) : bool :=
  match a, b with
  | [], [] => false
  | [], _ :: _ => true
  | _ :: _, [] => false
  | x :: r, y :: s => if eqb x y then lex_ltb eqb ltb r s else ltb x y
  end.

(** Assignment to the i-th element of a list. *)
Fixpoint set_nth {A} (l : list A) (i : nat) (x : A) : list A :=
  match l, i with
  | [], _ => []
  | _ :: r, 0 => x :: r
  | y :: r, S j => y :: set_nth r j x
  end.

(** Removal of the i-th element of a list. *)
Fixpoint remove_nth {A} (l : list A) (i : nat) : list A :=
  match l, i with
  | [], _ => []
  | _ :: r, 0 => r
  | y :: r, S j => y :: remove_nth r j
  end.
