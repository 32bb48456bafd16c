(** Model of common.subprocess, kill_all_subprocesses, __atexit, kill_subprocesses_at_exit and
    matplot_show_and_continue (xboa/common/_common.py, "common"), with has_root, has_multiprocessing and
    has_matplot of xboa/common/config.py ("config").

    Simplified: the operating system is a table of processes.  What a subprocess does is whether it runs,
    whether SIGTERM ends it, and when it ends by itself; signals act at once; the sleep in common 801 is
    left out.  The calls are made in the process that imported xboa. *)
From Coq Require Import List Bool Arith String.
Import ListNotations.
Open Scope string_scope.
Open Scope list_scope.

(** ---- the operating system -------------------------------------------------------- *)

(** A process.  [child]: started by common.subprocess; [running]: false for a child that ended and was not
    waited for; [soft]: SIGTERM ends it. *)
Record Proc := { pid : nat; child : bool; running : bool; soft : bool }.

Inductive Signal := SIGTERM | SIGKILL.

Definition stopped (p : Proc) : Proc :=
  {| pid := pid p; child := child p; running := false; soft := soft p |}.

(** The processes left when a process ends: a child stays until waited for, another one is gone (its
    parent waits for it). *)
Definition ended (p : Proc) : list Proc := if child p then [stopped p] else [].

Definition signalled (s : Signal) (p : Proc) : list Proc :=
  match s with
  | SIGKILL => ended p
  | SIGTERM => if soft p then ended p else [p]
  end.

Definition has_pid (n : nat) (t : list Proc) : bool := existsb (fun p => Nat.eqb (pid p) n) t.

(** os.kill(pid, signal); None for ProcessLookupError. *)
Definition os_kill (n : nat) (s : Signal) (t : list Proc) : option (list Proc) :=
  if has_pid n t then
    Some (flat_map (fun p => if Nat.eqb (pid p) n then signalled s p else [p]) t)
  else None.

(** os.waitpid(pid, WNOHANG) on a child that ended. *)
Definition reap (n : nat) (t : list Proc) : list Proc :=
  filter (fun p => negb (Nat.eqb (pid p) n && child p && negb (running p))) t.

Definition is_zombie (n : nat) (t : list Proc) : bool :=
  existsb (fun p => Nat.eqb (pid p) n && child p && negb (running p)) t.

Definition ends (n : nat) (t : list Proc) : list Proc :=
  flat_map (fun p => if Nat.eqb (pid p) n then ended p else [p]) t.

(** ---- multiprocessing.Process ----------------------------------------------------- *)

(** A Process object: start() raised; started; its exit code is known (it was waited for); closed. *)
Inductive MP := MFailed | MStarted (n : nat) | MDone | MClosed.

(** Exceptions. *)
Inductive Exn := EImport | EOS | EAttribute | EValue | EType.

(** Process.terminate(): os.kill with SIGTERM unless the exit code is known; AttributeError if not started,
    ValueError if closed.  The ProcessLookupError of a process that is gone is not raised. *)
Definition terminate (m : MP) (t : list Proc) : list Proc * option Exn :=
  match m with
  | MFailed => (t, Some EAttribute)
  | MClosed => (t, Some EValue)
  | MDone => (t, None)
  | MStarted n => (match os_kill n SIGTERM t with Some t' => t' | None => t end, None)
  end.

(** ---- xboa ------------------------------------------------------------------------ *)

(** What can be imported (config 21-60). *)
Record Config := { has_mp : bool; has_ROOT : bool; has_plt : bool }.

(** config: has_root, has_multiprocessing, has_matplot raise ImportError when the package is missing. *)
Definition has_root (c : Config) : option Exn := if has_ROOT c then None else Some EImport.
Definition has_multiprocessing (c : Config) : option Exn := if has_mp c then None else Some EImport.
Definition has_matplot (c : Config) : option Exn := if has_plt c then None else Some EImport.

(** The world: processes; the lists __mp_subprocesses and __fk_subprocesses (common 764-765); the name
    kill_subprocesses_at_exit in xboa.common._common (common 63) and the one of the package xboa.common,
    which "from ._common import *" makes (xboa/common/__init__.py). *)
Record World := { table : list Proc; mps : list MP; fks : list nat; flag_in : bool; flag_out : bool }.

Definition world0 (t : list Proc) : World :=
  {| table := t; mps := []; fks := []; flag_in := true; flag_out := true |}.

Definition set_table (w : World) (t : list Proc) : World :=
  {| table := t; mps := mps w; fks := fks w; flag_in := flag_in w; flag_out := flag_out w |}.

(** What the system does in one call of subprocess: [ctor]: Process(...) makes an object; [start]: the pid
    with which start() gives a process, or None when it raises; [fork]: that of os.fork; [is_soft]: SIGTERM
    ends the process. *)
Record Try := { ctor : bool; start : option nat; fork : option nat; is_soft : bool }.

(** subprocess returns a Process object (the i-th one made) or a pid, or raises. *)
Inductive Ret := RProcess (i : nat) | RPid (n : nat) | RNone | RRaise (e : Exn).

Definition spawn (w : World) (n : nat) (s : bool) : World :=
  set_table w (table w ++ [{| pid := n; child := true; running := true; soft := s |}]).

Definition add_mp (w : World) (m : MP) : World :=
  {| table := table w; mps := mps w ++ [m]; fks := fks w; flag_in := flag_in w; flag_out := flag_out w |}.

Definition add_fk (w : World) (n : nat) : World :=
  {| table := table w; mps := mps w; fks := fks w ++ [n]; flag_in := flag_in w; flag_out := flag_out w |}.

(** common 780-790: the except clause of subprocess.  What the inner try raises is an ImportError in both
    cases, that of has_root or that of line 782. *)
Definition fallback (c : Config) (a : Try) (w : World) : World * Ret :=
  let e := match has_root c with Some e => e | None => EImport end in
  match e with
  | EImport =>
      match fork a with
      | None => (w, RRaise EOS)
      | Some n => (add_fk (spawn w n (is_soft a)) n, RPid n)
      end
  | _ => (w, RRaise e)
  end.

(** common 766-790: subprocess. *)
Definition subprocess (c : Config) (a : Try) (w : World) : World * Ret :=
  match has_multiprocessing c with
  | Some _ => fallback c a w
  | None =>
      if ctor a then
        match start a with
        | Some n => (add_mp (spawn w n (is_soft a)) (MStarted n), RProcess (List.length (mps w)))
        | None => fallback c a (add_mp w MFailed)
        end
      else fallback c a w
  end.

(** common 757-763: matplot_show_and_continue. *)
Definition show_and_continue (c : Config) (a : Try) (w : World) : World * Ret :=
  match has_matplot c with
  | Some e => (w, RRaise e)
  | None =>
      match subprocess c a w with
      | (w', RRaise _) => (w', RRaise EImport)
      | (w', _) => (w', RNone)
      end
  end.

(** common 799-801: the loop over __mp_subprocesses. *)
Fixpoint kill_mps (l : list MP) (t : list Proc) : list Proc * option Exn :=
  match l with
  | [] => (t, None)
  | m :: l' =>
      match terminate m t with
      | (t', Some e) => (t', Some e)
      | (t', None) => kill_mps l' t'
      end
  end.

(** common 802-803: the loop over __fk_subprocesses. *)
Fixpoint kill_fks (l : list nat) (t : list Proc) : list Proc * option Exn :=
  match l with
  | [] => (t, None)
  | n :: l' =>
      match os_kill n SIGKILL t with
      | Some t' => kill_fks l' t'
      | None => (t, Some EOS)
      end
  end.

(** common 794-803: kill_all_subprocesses. *)
Definition kill_all (w : World) : World * Ret :=
  match kill_mps (mps w) (table w) with
  | (t, Some e) => (set_table w t, RRaise e)
  | (t, None) =>
      match kill_fks (fks w) t with
      | (t', Some e) => (set_table w t', RRaise e)
      | (t', None) => (set_table w t', RNone)
      end
  end.

(** common 824-828: __atexit. *)
Definition at_exit (w : World) : World * Ret := if flag_in w then kill_all w else (w, RNone).

(** ---- programs -------------------------------------------------------------------- *)

Fixpoint set_nth {A} (l : list A) (i : nat) (x : A) : list A :=
  match l, i with
  | [], _ => []
  | _ :: l', O => x :: l'
  | y :: l', S i' => y :: set_nth l' i' x
  end.

(** What can happen: calls of xboa; the caller sets the flag in xboa.common or in xboa.common._common;
    closes the i-th Process object; waits for a pid that subprocess returned; multiprocessing waits for its
    i-th process (join, is_alive, or the start of a later one); process n ends by itself; another program
    starts a process. *)
Inductive Op :=
| OSub (a : Try) | OShow (a : Try) | OKill | OSetPackage (b : bool) | OSetModule (b : bool)
| OClose (i : nat) | OWait (n : nat) | OJoin (i : nat) | OEnds (n : nat) | OOther (n : nat) (s : bool).

(** Process.close(): ValueError while it runs (its exit code is not known). *)
Definition close_mp (i : nat) (w : World) : World * Ret :=
  match nth_error (mps w) i with
  | Some (MStarted _) => (w, RRaise EValue)
  | Some _ => ({| table := table w; mps := set_nth (mps w) i MClosed; fks := fks w; flag_in := flag_in w;
                  flag_out := flag_out w |}, RNone)
  | None => (w, RNone)
  end.

Definition join_mp (i : nat) (w : World) : World * Ret :=
  match nth_error (mps w) i with
  | Some (MStarted n) =>
      if is_zombie n (table w) then
        ({| table := reap n (table w); mps := set_nth (mps w) i MDone; fks := fks w; flag_in := flag_in w;
            flag_out := flag_out w |}, RNone)
      else (w, RNone)
  | _ => (w, RNone)
  end.

Definition is_fork (n : nat) (w : World) : bool := existsb (Nat.eqb n) (fks w).

(** A Process object in the state started has this pid. *)
Definition is_mp (n : nat) (w : World) : bool :=
  existsb (fun m => match m with MStarted k => Nat.eqb k n | _ => false end) (mps w).

Definition step (c : Config) (o : Op) (w : World) : World * Ret :=
  match o with
  | OSub a => subprocess c a w
  | OShow a => show_and_continue c a w
  | OKill => kill_all w
  | OSetPackage b => ({| table := table w; mps := mps w; fks := fks w; flag_in := flag_in w; flag_out := b |},
                      RNone)
  | OSetModule b => ({| table := table w; mps := mps w; fks := fks w; flag_in := b; flag_out := flag_out w |},
                     RNone)
  | OClose i => close_mp i w
  | OWait n => if is_fork n w && negb (is_mp n w) then (set_table w (reap n (table w)), RNone) else (w, RNone)
  | OJoin i => join_mp i w
  | OEnds n => (set_table w (ends n (table w)), RNone)
  | OOther n s => (set_table w (table w ++ [{| pid := n; child := false; running := true; soft := s |}]), RNone)
  end.

(** The system gives a new process a pid that no process has. *)
Definition new_pids (o : Op) : list nat :=
  match o with
  | OSub a | OShow a => match start a with Some n => [n] | None => [] end ++
                        match fork a with Some n => [n] | None => [] end
  | OOther n _ => [n]
  | _ => []
  end.

Definition possible (o : Op) (w : World) : Prop := Forall (fun n => has_pid n (table w) = false) (new_pids o).

(** The worlds and the results of a program. *)
Inductive runs (c : Config) : World -> list Op -> World -> list Ret -> Prop :=
| runs_nil w : runs c w [] w []
| runs_cons w o w1 r os w2 rs :
    possible o w -> step c o w = (w1, r) -> runs c w1 os w2 rs -> runs c w (o :: os) w2 (r :: rs).
