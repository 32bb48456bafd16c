(** Tracking in subprocesses (xboa/tracking).

    The calling process, the file system and the child processes form one system.  The
    calling process makes calls one after the other; the children make steps, or die, at
    any point between two accesses of the calling process to the file system.  Which child
    moves when is a parameter of the calls (a list of events), so that every schedule and
    every crash point is covered.

    Simplified: the tracking object is a function from lists of hits to lists of results,
    [None] if it raises; it has no state of its own.  The file system never refuses to
    create or write a file.  Reading a pickle file is one access. *)
From Coq Require Import ZArith List Bool.
Import ListNotations.
Open Scope list_scope.

(** Which Python runs the code.  [floor_div]: [/] on two ints gives an int (Python 2, or
    [//] written in its place).  [text_pickle]: pickle can write to and read from files
    opened without "b" (Python 2, or "b" written in its place).  setup.py:85 requires
    Python 3, where neither holds. *)
Record Dialect := mkDialect { floor_div : bool; text_pickle : bool }.
Definition python3 : Dialect := mkDialect false false.
Definition repaired : Dialect := mkDialect true true.

Inductive Exn := RuntimeErr | TypeErr | EOFErr | OSErr | ZeroDivErr | IndexErr.
Inductive Res (A : Type) := Ret (a : A) | Exc (e : Exn).
Arguments Ret {A} a.
Arguments Exc {A} e.

Section Track.
Context {H T : Type}.

(** A file: completely written, or opened and not (completely) written. *)
Inductive File (A : Type) := Whole (a : A) | Truncated.
Arguments Whole {A} a.
Arguments Truncated {A}.

(** An output directory, with the two files the classes use
    (tracking_process/_tracking_process.py:159-160): the pickled process, represented by
    its list of hits, and the pickled output. *)
Record Dir := mkDir { jar : option (File (list H)); sandwich : option (File (list T)) }.

(** Child process: xboa_tracking_process.py:39-51.  Boot: before line 44; Loaded: the process
    is read; Cleared: after lines 46-47; Computed: after line 49; Writing: after the open
    of line 50; Written: after line 51; Exited: with its exit code. *)
Inductive Phase :=
| Boot | Loaded (h : list H) | Cleared (h : list H) | Computed (v : list T)
| Writing (v : list T) | Written | Exited (code : Z).

(** [k_dir] is the --out-dir argument, [k_cwd] the inherited working directory ([None]: not
    one of the output directories). *)
Record Kid := mkKid { k_dir : nat; k_cwd : option nat; k_phase : Phase }.

(** A ThisNodeProcess: out_dir, hit_list, proc and exitcode
    (tracking_process/_tracking_process.py:42-55, _this_node_process.py:37-44). *)
Record Proc := mkProc {
  p_dir : nat;
  p_hits : option (list H);
  p_child : option nat;
  p_exit : option Z }.

Record Sys := mkSys {
  procs : list Proc;     (* the objects of the calling process *)
  dirs : list Dir;       (* the directories made so far *)
  kids : list Kid;       (* all child processes ever started *)
  cwd : option nat }.    (* working directory of the calling process *)

Definition init : Sys := mkSys [] [] [] None.

Fixpoint set_at {A} (l : list A) (i : nat) (a : A) : list A :=
  match l, i with
  | [], _ => []
  | _ :: r, O => a :: r
  | x :: r, S j => x :: set_at r j a
  end.

Definition with_procs (s : Sys) (l : list Proc) : Sys := mkSys l (dirs s) (kids s) (cwd s).
Definition with_dirs (s : Sys) (l : list Dir) : Sys := mkSys (procs s) l (kids s) (cwd s).
Definition with_kids (s : Sys) (l : list Kid) : Sys := mkSys (procs s) (dirs s) l (cwd s).
Definition set_proc (s : Sys) (i : nat) (p : Proc) : Sys := with_procs s (set_at (procs s) i p).
Definition set_phase (s : Sys) (k : nat) (kid : Kid) (ph : Phase) : Sys :=
  with_kids s (set_at (kids s) k (mkKid (k_dir kid) (k_cwd kid) ph)).

Definition write_jar (s : Sys) (d : nat) (f : File (list H)) : Sys :=
  match nth_error (dirs s) d with
  | Some x => with_dirs s (set_at (dirs s) d (mkDir (Some f) (sandwich x)))
  | None => s
  end.
Definition write_sandwich (s : Sys) (d : nat) (f : option (File (list T))) : Sys :=
  match nth_error (dirs s) d with
  | Some x => with_dirs s (set_at (dirs s) d (mkDir (jar x) f))
  | None => s
  end.

Variable dl : Dialect.
Variable track : list H -> option (list T).

(** xboa/tracking/tracking_process/xboa_tracking_process.py:39-51, one step.  An uncaught exception ends the
    interpreter with exit code 1; the end of the script with exit code 0.  The path of
    lines 46-47 is relative to the working directory. *)
Definition kid_step (s : Sys) (k : nat) : Sys :=
  match nth_error (kids s) k with
  | None => s
  | Some kid =>
      match k_phase kid with
      | Boot =>
          match nth_error (dirs s) (k_dir kid) with
          | Some (mkDir (Some (Whole h)) _) =>
              if text_pickle dl then set_phase s k kid (Loaded h)
              else set_phase s k kid (Exited 1)
          | _ => set_phase s k kid (Exited 1)
          end
      | Loaded h =>
          set_phase (match k_cwd kid with
                     | Some d => write_sandwich s d None
                     | None => s
                     end) k kid (Cleared h)
      | Cleared h =>
          match track h with
          | Some v => set_phase s k kid (Computed v)
          | None => set_phase s k kid (Exited 1)
          end
      | Computed v => set_phase (write_sandwich s (k_dir kid) (Some Truncated)) k kid (Writing v)
      | Writing v =>
          if text_pickle dl
          then set_phase (write_sandwich s (k_dir kid) (Some (Whole v))) k kid Written
          else set_phase s k kid (Exited 1)
      | Written => set_phase s k kid (Exited 0)
      | Exited _ => s
      end
  end.

(** What the children do between two accesses of the calling process: a step of the script,
    or the death of the child (a signal, a crash of the tracking code) in any phase. *)
Inductive Event := Step (k : nat) | Die (k : nat) (code : Z).

Definition event (s : Sys) (e : Event) : Sys :=
  match e with
  | Step k => kid_step s k
  | Die k c =>
      match nth_error (kids s) k with
      | Some kid =>
          match k_phase kid with
          | Exited _ => s
          | _ => set_phase s k kid (Exited c)
          end
      | None => s
      end
  end.

Definition events (s : Sys) (l : list Event) : Sys := fold_left event l s.

(** subprocess.Popen.poll: the exit code if the child has ended. *)
Definition poll (s : Sys) (k : nat) : option Z :=
  match nth_error (kids s) k with
  | Some kid => match k_phase kid with Exited c => Some c | _ => None end
  | None => None
  end.

(** tracking_process/_tracking_process.py:56-65, tempfile.mkdtemp makes a directory of a new name. *)
Definition new_out_dir (s : Sys) (i : nat) : Sys :=
  match nth_error (procs s) i with
  | Some p =>
      let s' := with_dirs s (dirs s ++ [mkDir None None]) in
      set_proc s' i (mkProc (List.length (dirs s)) (p_hits p) (p_child p) (p_exit p))
  | None => s
  end.

(** tracking_process/_tracking_process.py:42-55 and _this_node_process.py:37-44. *)
Definition new_process (s : Sys) : Sys :=
  new_out_dir (with_procs s (procs s ++ [mkProc 0 None None None])) (List.length (procs s)).

(** copy.deepcopy of a process.  A subprocess.Popen holds a lock and can not be copied. *)
Definition copy_process (s : Sys) (i : nat) : Sys * Res nat :=
  match nth_error (procs s) i with
  | Some p =>
      match p_child p with
      | None => (with_procs s (procs s ++ [p]), Ret (List.length (procs s)))
      | Some _ => (s, Exc TypeErr)
      end
  | None => (s, Exc IndexErr)
  end.

(** tracking_process/_tracking_process.py:67-73.  [open(.., "w")] truncates the file, the children
    may act, then pickle writes.  It raises TypeError in Python 3 because the file is a
    text file, and if the process was started because a Popen can not be pickled. *)
Definition set_hit_list (s : Sys) (i : nat) (h : list H) (es : list Event) : Sys * Res unit :=
  match nth_error (procs s) i with
  | Some p =>
      let s1 := set_proc s i (mkProc (p_dir p) (Some h) (p_child p) (p_exit p)) in
      let s2 := events (write_jar s1 (p_dir p) Truncated) es in
      match text_pickle dl, p_child p with
      | true, None => (write_jar s2 (p_dir p) (Whole h), Ret tt)
      | _, _ => (s2, Exc TypeErr)
      end
  | None => (s, Exc IndexErr)
  end.

(** tracking_process/_this_node_process.py:57-64. *)
Definition is_alive (s : Sys) (i : nat) : Sys * bool :=
  match nth_error (procs s) i with
  | Some p =>
      match p_child p with
      | None => (s, false)
      | Some k =>
          let e := poll s k in
          (set_proc s i (mkProc (p_dir p) (p_hits p) (p_child p) e),
           match e with None => true | Some _ => false end)
      end
  | None => (s, false)
  end.

(** tracking_process/_this_node_process.py:46-55.  [found]: the executable is on the path. *)
Definition start (s : Sys) (i : nat) (found : bool) : Sys * Res unit :=
  let (s1, alive) := is_alive s i in
  if alive then (s1, Exc RuntimeErr)
  else match nth_error (procs s1) i with
       | Some p =>
           if found
           then (set_proc (with_kids s1 (kids s1 ++ [mkKid (p_dir p) (cwd s1) Boot])) i
                          (mkProc (p_dir p) (p_hits p) (Some (List.length (kids s1))) (p_exit p)),
                 Ret tt)
           else (s1, Exc OSErr)
       | None => (s1, Exc IndexErr)
       end.

(** tracking_process/_tracking_process.py:114-124.  [limit]: how often the body of the loop runs
    before the clock passes the timeout; [None]: no timeout.  [rounds]: what the children
    do during each pass of the loop.  The result is [false] if the loop is still running
    at the end of [rounds]. *)
Fixpoint join (rounds : list (list Event)) (limit : option nat) (s : Sys) (i : nat)
  : Sys * bool :=
  let (s1, alive) := is_alive s i in
  if alive && (match limit with Some O => false | _ => true end)
  then match rounds with
       | [] => (s1, false)
       | es :: rest => join rest (option_map pred limit) (events s1 es) i
       end
  else (s1, true).

(** tracking_process/_this_node_process.py:66-86, terminate and kill.  The signal takes effect as an
    event [Die] in [rounds], if it does. *)
Definition kill (rounds : list (list Event)) (limit : option nat) (s : Sys) (i : nat)
  : Sys * Res bool :=
  match nth_error (procs s) i with
  | Some p =>
      match p_child p with
      | None => (s, Exc RuntimeErr)
      | Some _ =>
          let (s1, back) := join rounds limit s i in
          if back then (fst (is_alive s1 i), Ret true) else (s1, Ret false)
      end
  | None => (s, Exc IndexErr)
  end.

(** tracking_process/_tracking_process.py:126-144.  The children may act after the poll ([e1]) and
    between lines 138 and 143 ([e2]). *)
Definition get_return_value (s : Sys) (i : nat) (e1 e2 : list Event) : Sys * Res (list T) :=
  let (s1, alive) := is_alive s i in
  if alive then (s1, Exc RuntimeErr)
  else match nth_error (procs s1) i with
       | None => (s1, Exc IndexErr)
       | Some p =>
           match p_exit p with
           | None => (s1, Exc RuntimeErr)
           | Some _ =>
               let s2 := events s1 e1 in
               match nth_error (dirs s2) (p_dir p) with
               | Some (mkDir _ (Some _)) =>
                   let s3 := events s2 e2 in
                   match nth_error (dirs s3) (p_dir p) with
                   | Some (mkDir _ (Some (Whole v))) =>
                       if text_pickle dl then (s3, Ret v) else (s3, Exc TypeErr)
                   | Some (mkDir _ (Some Truncated)) => (s3, Exc EOFErr)
                   | _ => (s3, Exc OSErr)
                   end
               | _ => (s2, Exc RuntimeErr)
               end
           end
       end.

(** The calls a user can make, and the passing of time. *)
Inductive Call :=
| New | Copy (i : nat) | NewOutDir (i : nat) | SetHits (i : nat) (h : list H) (es : list Event)
| Start (i : nat) (found : bool) | IsAlive (i : nat)
| Join (i : nat) (rounds : list (list Event)) (limit : option nat)
| Kill (i : nat) (rounds : list (list Event)) (limit : option nat)
| Get (i : nat) (e1 e2 : list Event)
| Chdir (d : option nat)
| Wait (es : list Event).

Definition call (s : Sys) (c : Call) : Sys :=
  match c with
  | New => new_process s
  | Copy i => fst (copy_process s i)
  | NewOutDir i => new_out_dir s i
  | SetHits i h es => fst (set_hit_list s i h es)
  | Start i f => fst (start s i f)
  | IsAlive i => fst (is_alive s i)
  | Join i r l => fst (join r l s i)
  | Kill i r l => fst (kill r l s i)
  | Get i e1 e2 => fst (get_return_value s i e1 e2)
  | Chdir None => mkSys (procs s) (dirs s) (kids s) None
  | Chdir (Some d) =>
      if d <? List.length (dirs s) then mkSys (procs s) (dirs s) (kids s) (Some d) else s
  | Wait es => events s es
  end.

Definition calls (p : list Call) : Sys := fold_left call p init.

(** * MultiTrack, xboa/tracking/_multitrack.py *)

(** _multitrack.py:72-78: one pass of slicing, [q] = n_hits_per_process. *)
Definition next_chunk (q : nat) (rem : Z) (hits : list H) : list H * list H * Z :=
  if (0 <? rem)%Z
  then (firstn (q + 1) hits, skipn (q + 1) hits, (rem - 1)%Z)
  else (firstn q hits, skipn q hits, rem).

(** _multitrack.py:71-83, the loop over the processes.  [sched] gives, for each pass, what
    the children do before the set_hit_list, during it, and after it, and whether the
    executable was found. *)
Definition Pass : Type := list Event * list Event * list Event * bool.

Fixpoint start_jobs (n : nat) (q : nat) (rem : Z) (hits : list H) (sched : list Pass)
    (s : Sys) (job : nat) (jobs : list nat) : Sys * list nat * Res unit :=
  match n with
  | O => (s, jobs, Ret tt)
  | S n' =>
      let '(chunk, rest, rem') := next_chunk q rem hits in
      let '(e1, e2, e3, found) := hd ([], [], [], true) sched in
      match copy_process s job with
      | (s1, Exc e) => (s1, jobs, Exc e)
      | (s1, Ret j) =>
          match set_hit_list (events (new_out_dir s1 j) e1) j chunk e2 with
          | (s2, Exc e) => (s2, jobs, Exc e)
          | (s2, Ret _) =>
              match start (events s2 e3) j found with
              | (s3, Exc e) => (s3, jobs ++ [j], Exc e)
              | (s3, Ret _) => start_jobs n' q rem' rest (tl sched) s3 job (jobs ++ [j])
              end
          end
      end
  end.

(** _multitrack.py:50-84.  Returns the new job_list.  In Python 3 [n_hits_per_process] is a
    float, which is no slice index. *)
Definition track_many_async (n : Z) (hits : list H) (sched : list Pass) (s : Sys) (job : nat)
  : Sys * list nat * Res unit :=
  if (n =? 0)%Z then (s, [], Exc ZeroDivErr)
  else if (n <? 0)%Z then (s, [], Ret tt)
  else if floor_div dl
       then let len := Z.of_nat (List.length hits) in
            start_jobs (Z.to_nat n) (Z.to_nat (len / n)) (len mod n) hits sched s job []
       else (s, [], Exc TypeErr).

(** _multitrack.py:116-128.  [sched]: the events during each get_return_value. *)
Fixpoint collect (jobs : list nat) (sched : list (list Event * list Event)) (s : Sys)
    (last : list T) : Sys * Res (list T) :=
  match jobs with
  | [] => (s, Ret last)
  | j :: rest =>
      let (e1, e2) := hd ([], []) sched in
      match get_return_value s j e1 e2 with
      | (s1, Ret v) => collect rest (tl sched) s1 (last ++ v)
      | (s1, Exc RuntimeErr) => collect rest (tl sched) s1 last
      | (s1, Exc e) => (s1, Exc e)
      end
  end.

(** _multitrack.py:106-113, the for loop: the jobs still alive; [sched]: what the children do
    after each poll and, if it is longer, after the last. *)
Fixpoint poll_jobs (jobs : list nat) (sched : list (list Event)) (s : Sys) : Sys * list nat :=
  match jobs with
  | [] => (events s (concat sched), [])
  | j :: rest =>
      let (s1, alive) := is_alive s j in
      let (s2, l) := poll_jobs rest (tl sched) (events s1 (hd [] sched)) in
      (s2, if alive then j :: l else l)
  end.

(** _multitrack.py:105-113, the while loop; [false]: still running at the end of [rounds]. *)
Fixpoint wait_jobs (rounds : list (list (list Event))) (jobs : list nat) (s : Sys)
  : Sys * bool :=
  match jobs with
  | [] => (s, true)
  | _ =>
      match rounds with
      | [] => (s, false)
      | r :: rest => let (s1, l) := poll_jobs jobs r s in wait_jobs rest l s1
      end
  end.

(** _multitrack.py:92-114.  [None]: not returned yet. *)
Definition track_many (n : Z) (hits : list H) (sched : list Pass)
    (rounds : list (list (list Event))) (csched : list (list Event * list Event))
    (s : Sys) (job : nat) : Sys * option (Res (list T)) :=
  match track_many_async n hits sched s job with
  | (s1, _, Exc e) => (s1, Some (Exc e))
  | (s1, jobs, Ret _) =>
      let (s2, back) := wait_jobs rounds jobs s1 in
      if back then let (s3, r) := collect jobs csched s2 [] in (s3, Some r)
      else (s2, None)
  end.

End Track.

Arguments Whole {A} a.
Arguments Truncated {A}.
Arguments Event : clear implicits.
