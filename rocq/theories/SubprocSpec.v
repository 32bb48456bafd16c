(** Vocabulary for subprocesses (C90). *)
From Coq Require Import List Bool Arith.
From Verif Require Import SubprocModel.
Import ListNotations.

(** The processes that subprocess did not start, and those it started. *)
Definition others (t : list Proc) : list Proc := filter (fun p => negb (child p)) t.
Definition ours (t : list Proc) : list Proc := filter child t.

(** When xboa is imported it has started nothing, and pids are distinct. *)
Definition fresh (t : list Proc) : Prop := ours t = [] /\ NoDup (map pid t).

(** multiprocessing can be imported, makes the Process object, and then cannot start it. *)
Definition fails_to_start (c : Config) (a : Try) : Prop := has_mp c = true /\ ctor a = true /\ start a = None.

(** A caller that closes no Process object and waits for no pid, on a system that starts every Process. *)
Definition plain (c : Config) (o : Op) : Prop :=
  match o with
  | OSub a => ~ fails_to_start c a
  | OShow a => has_plt c = true -> ~ fails_to_start c a
  | OClose _ | OWait _ => False
  | _ => True
  end.

(** The last value given to kill_subprocesses_at_exit in xboa.common._common, b before. *)
Fixpoint last_module (b : bool) (os : list Op) : bool :=
  match os with
  | [] => b
  | OSetModule b' :: os' => last_module b' os'
  | _ :: os' => last_module b os'
  end.

(** A process of the table runs. *)
Definition alive (n : nat) (t : list Proc) : Prop := exists p, In p t /\ pid p = n /\ running p = true.
