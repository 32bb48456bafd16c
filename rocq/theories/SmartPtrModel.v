(** Model of the reference counting smart pointer.
    Source: xboa/core/utils/SmartPointer.hh. *)
From Coq Require Import List Bool Arith.
Import ListNotations.

(** Handles (SmartPointer objects) and memory addresses are numbers. *)
Definition Handle := nat.
Definition Addr := nat.

(** State of the process.
    [sp_handles]: live SmartPointer objects and their ptr_ (None is NULL).
    [sp_refs]: the static map ref_count_ (SmartPointer.hh 86).
    [sp_alive]: addresses holding a constructed object.
    [sp_fault]: a delete was executed on an address without an object. *)
Record SpState := mkSp {
  sp_handles : list (Handle * option Addr);
  sp_refs : list (Addr * nat);
  sp_alive : list Addr;
  sp_fault : bool
}.

Definition sp_init : SpState := mkSp [] [] [] false.

(** Association list primitives (std::map on addresses, C++ scopes on handles). *)
Fixpoint al_find {A} (m : list (nat * A)) (k : nat) : option A :=
  match m with
  | [] => None
  | (k', v) :: r => if Nat.eqb k' k then Some v else al_find r k
  end.

Definition al_remove {A} (m : list (nat * A)) (k : nat) : list (nat * A) :=
  filter (fun kv => negb (Nat.eqb (fst kv) k)) m.

Definition al_put {A} (m : list (nat * A)) (k : nat) (v : A) : list (nat * A) :=
  (k, v) :: al_remove m k.

Definition in_addr (l : list Addr) (a : Addr) : bool := existsb (Nat.eqb a) l.

(** C++ [delete ptr_] (SmartPointer.hh 145): faults when there is no object. *)
Definition cxx_delete (s : SpState) (a : Addr) : SpState :=
  if in_addr (sp_alive s) a
  then mkSp (sp_handles s) (sp_refs s)
            (filter (fun b => negb (Nat.eqb b a)) (sp_alive s)) (sp_fault s)
  else mkSp (sp_handles s) (sp_refs s) (sp_alive s) true.

Definition set_refs (s : SpState) (r : list (Addr * nat)) : SpState :=
  mkSp (sp_handles s) r (sp_alive s) (sp_fault s).

(** SmartPointer.hh 133-148: decref.  (The missing context branch 138-140 is not
    modelled: the context is set when the module is loaded.) *)
Definition decref (s : SpState) (p : option Addr) : SpState :=
  match p with
  | None => s
  | Some a =>
      match al_find (sp_refs s) a with
      | None => s
      | Some n =>
          let s1 := set_refs s (al_put (sp_refs s) a (pred n)) in
          if Nat.eqb (pred n) 0 then
            let s2 := cxx_delete s1 a in
            set_refs s2 (al_remove (sp_refs s2) a)
          else s1
      end
  end.

(** SmartPointer.hh 158-166: incref. *)
Definition incref (s : SpState) (p : option Addr) : SpState :=
  match p with
  | None => s
  | Some a =>
      match al_find (sp_refs s) a with
      | None => set_refs s (al_put (sp_refs s) a 1)
      | Some n => set_refs s (al_put (sp_refs s) a (S n))
      end
  end.

(** SmartPointer.hh 150-155: ref_count. *)
Definition ref_count (s : SpState) (a : Addr) : nat :=
  match al_find (sp_refs s) a with None => 0 | Some n => n end.

Definition opt_addr_eqb (p q : option Addr) : bool :=
  match p, q with
  | None, None => true
  | Some a, Some b => Nat.eqb a b
  | _, _ => false
  end.

(** SmartPointer.hh 116-126: set, on the handle [h] whose current ptr_ is [old]. *)
Definition sp_set (s : SpState) (h : Handle) (old new : option Addr) : SpState :=
  if opt_addr_eqb new old then s
  else
    let s1 := decref s old in
    let s2 := mkSp (al_put (sp_handles s1) h new) (sp_refs s1) (sp_alive s1) (sp_fault s1) in
    incref s2 new.

(** A new handle with ptr_(NULL) (SmartPointer.hh 90, 94, 100). *)
Definition add_handle (s : SpState) (h : Handle) : SpState :=
  mkSp ((h, None) :: sp_handles s) (sp_refs s) (sp_alive s) (sp_fault s).

(** What C++ client code can do.
    [OpNew h a]: SmartPointer h(new T), where the allocator returned [a].
    [OpRaw h g]: SmartPointer h(g.get()).
    [OpSetNew h a]: h.set(new T).
    [OpSetRaw h g]: h.set(g.get()). *)
Inductive SpOp :=
| OpNull (h : Handle)                 (* SmartPointer h; *)
| OpNew (h : Handle) (a : Addr)
| OpCopy (h g : Handle)               (* SmartPointer h(g); *)
| OpAssign (h g : Handle)             (* h = g; *)
| OpRaw (h g : Handle)
| OpSetNew (h : Handle) (a : Addr)
| OpSetRaw (h g : Handle)
| OpSetNull (h : Handle)              (* h.set(NULL) *)
| OpDestroy (h : Handle).             (* end of scope *)

(** operator new: the allocator never returns an address in use. *)
Definition alloc (s : SpState) (a : Addr) : option SpState :=
  if in_addr (sp_alive s) a then None
  else Some (mkSp (sp_handles s) (sp_refs s) (a :: sp_alive s) (sp_fault s)).

(** Programs that name a handle that does not exist, declare a handle twice, or claim
    an allocation at an address in use are not C++ programs: the step is skipped. *)
Definition sp_exec (s : SpState) (op : SpOp) : SpState :=
  match op with
  | OpNull h =>
      match al_find (sp_handles s) h with
      | Some _ => s
      | None => add_handle s h                                   (* 89-91 *)
      end
  | OpNew h a =>
      match al_find (sp_handles s) h, alloc s a with
      | None, Some s' => sp_set (add_handle s' h) h None (Some a)  (* 93-96 *)
      | _, _ => s
      end
  | OpCopy h g | OpRaw h g =>
      match al_find (sp_handles s) h, al_find (sp_handles s) g with
      | None, Some p => sp_set (add_handle s h) h None p          (* 98-102, 93-96 *)
      | _, _ => s
      end
  | OpAssign h g | OpSetRaw h g =>
      match al_find (sp_handles s) h, al_find (sp_handles s) g with
      | Some old, Some p => sp_set s h old p                      (* 104-109 *)
      | _, _ => s
      end
  | OpSetNew h a =>
      match al_find (sp_handles s) h, alloc s a with
      | Some old, Some s' => sp_set s' h old (Some a)
      | _, _ => s
      end
  | OpSetNull h =>
      match al_find (sp_handles s) h with
      | Some old => sp_set s h old None
      | None => s
      end
  | OpDestroy h =>
      match al_find (sp_handles s) h with
      | None => s
      | Some p =>                                                 (* 111-114 *)
          let s1 := decref s p in
          mkSp (al_remove (sp_handles s1) h) (sp_refs s1) (sp_alive s1) (sp_fault s1)
      end
  end.

Definition sp_run (ops : list SpOp) : SpState := fold_left sp_exec ops sp_init.
