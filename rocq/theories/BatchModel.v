(** Model of xboa/tracking/tracking_process/_bsub_process.py (BSubProcess: tracking in jobs of a batch
    queue) with what it takes from _tracking_process.py.  Line numbers without a file name refer
    to _bsub_process.py.

    The calling process makes calls one after the other; between two of its accesses to the queue
    or to the file system any events of the queue may take place.

    Simplified: files hold what was pickled into them; a directory belongs to one process object
    (copies of objects and calls of new_out_dir from outside are left out); bkill and, once the
    constructor has found it, bsub can be executed. *)
From Coq Require Import ZArith String Ascii List Bool.
From Verif Require Import SubstModel TrackModel.
Import ListNotations.
Open Scope list_scope.

(** The characters of a string. *)
Definition text (s : string) : Text := map (fun c => Z.of_nat (nat_of_ascii c)) (list_ascii_of_string s).

(** str.find: the position of the first occurrence; [None] is Python's -1. *)
Fixpoint find_text (k s : Text) : option nat :=
  if starts_with k s then Some O
  else match s with [] => None | _ :: r => option_map S (find_text k r) end.

(** 105-117: BSubProcess._get_substr; [None]: ValueError. *)
Definition get_substr (s start_key end_key : Text) : option Text :=
  match find_text start_key s with
  | None => None
  | Some i =>
      let r := skipn (i + List.length start_key) s in
      match find_text end_key r with
      | None => None
      | Some j => Some (firstn j r)
      end
  end.

(** int() of a text: white space around it is dropped, then an optional sign and digits, between which single
    underscores may stand.  Digits outside ASCII are left out. *)
Definition is_space (c : Z) : bool := ((9 <=? c) && (c <=? 13) || (28 <=? c) && (c <=? 32))%Z.
Definition is_digit (c : Z) : bool := ((48 <=? c) && (c <=? 57))%Z.
Fixpoint lstrip (s : Text) : Text :=
  match s with [] => [] | c :: r => if is_space c then lstrip r else s end.
Definition strip (s : Text) : Text := rev (lstrip (rev (lstrip s))).
Fixpoint digits (acc : Z) (s : Text) : option Z :=
  match s with
  | [] => Some acc
  | c :: r =>
      if is_digit c then digits (10 * acc + (c - 48)) r
      else if Z.eqb c 95 then
             match r with
             | d :: r' => if is_digit d then digits (10 * acc + (d - 48)) r' else None
             | [] => None
             end
      else None
  end.
Definition natural (s : Text) : option Z :=
  match s with
  | [] => None
  | c :: r => if is_digit c then digits (c - 48) r else None
  end.
Definition py_int (s : Text) : option Z :=
  match strip s with
  | [] => None
  | c :: r =>
      if Z.eqb c 43 then natural r
      else if Z.eqb c 45 then option_map Z.opp (natural r)
      else natural (c :: r)
  end.

(** 70-72: the slice [start_index:end_index], where an end_index of -1 leaves out the last character. *)
Definition job_number (s : Text) : option Z :=
  let a := match find_text (text "<") s with Some i => S i | None => O end in
  let b := match find_text (text ">") s with Some i => i | None => pred (List.length s) end in
  py_int (skipn a (firstn b s)).

(** 82: the words that count as alive. *)
Definition alive_words : list Text := [text "PEND"; text "RUN"; text "WAIT"].
Fixpoint same (a b : Text) : bool :=
  match a, b with
  | [], [] => true
  | x :: a', y :: b' => (Z.eqb x y && same a' b')%bool
  | _, _ => false
  end.

(** 84-88: exitcode is the number 0 or the text behind 'exit code '. *)
Inductive Exit := Zero | Words (t : Text).

(** 81-89: what is_alive makes of the output of bjobs; [None]: ValueError. *)
Definition read_status (s : Text) : option (bool * option Exit) :=
  match get_substr s (text "Status <") (text ">") with
  | None => None
  | Some w =>
      if existsb (same w) alive_words then Some (true, None)
      else Some (false, Some (match get_substr s (text "exit code ") (text ".") with
                              | Some t => Words t
                              | None => Zero
                              end))
  end.

Inductive BExn := BRuntime | BType | BValue | BImport | BCalled | BOS | BEOF | BIndex.

Section Batch.
Context {H V : Type}.

(** The state of a job in the queue.  [Held w]: the queue holds it with another word than those of line 82
    (PSUSP, USUSP, SSUSP, UNKWN, ...) and may go on with it.  [Gone]: ended, and no longer known to the
    queue. *)
Inductive JState := Pending | Running | Waiting | Held (w : Text) | Ended (code : Z) | Gone.
Definition over (s : JState) : bool := match s with Ended _ | Gone => true | _ => false end.

(** A job: its number, the process whose --out-dir (line 69) it runs in, its state. *)
Record Job := mkJob { j_id : Z; j_owner : nat; j_state : JState }.

(** A BSubProcess with its directory: pid, exitcode, hit_list, the pickled process (out_dir/pickle_jar) and
    the output (out_dir/pickle_sandwich). *)
Record BProc := mkBProc {
  b_pid : option Z;
  b_exit : option Exit;
  b_hits : option (list H);
  b_jar : option (@File (option (list H)));
  b_out : option (@File V) }.

(** [q_next]: the number of the next job; [q_asked]: the numbers bkill was called with. *)
Record World := mkWorld {
  q_procs : list BProc;
  q_jobs : list Job;
  q_next : Z;
  q_asked : list Z }.

Definition w_init (n : Z) : World := mkWorld [] [] n [].
Definition set_p (w : World) (i : nat) (p : BProc) : World :=
  mkWorld (set_at (q_procs w) i p) (q_jobs w) (q_next w) (q_asked w).

(** What the queue prints: bsub for a new job, bjobs -l for a known one. *)
Variable bsub_text : Z -> Text.
Variable bjobs_text : Z -> JState -> Text.
Variable dl : Dialect.

(** Events: a job changes its state (a job that has ended can only be forgotten); a running job
    makes or changes the output file of its directory; other users submit jobs. *)
Inductive QEvent := Move (id : Z) (s : JState) | Output (id : Z) (f : @File V) | Others (n : nat).

Definition move (s : JState) (j : Job) : Job :=
  match j_state j with
  | Gone => j
  | Ended _ => match s with Gone => mkJob (j_id j) (j_owner j) Gone | _ => j end
  | _ => match s with Gone => j | _ => mkJob (j_id j) (j_owner j) s end
  end.
Definition job_of (w : World) (id : Z) : option Job := find (fun j => Z.eqb (j_id j) id) (q_jobs w).

Definition q_event (w : World) (e : QEvent) : World :=
  match e with
  | Move id s =>
      mkWorld (q_procs w) (map (fun j => if Z.eqb (j_id j) id then move s j else j) (q_jobs w))
        (q_next w) (q_asked w)
  | Output id f =>
      match job_of w id with
      | Some j =>
          match j_state j, nth_error (q_procs w) (j_owner j) with
          | Running, Some p =>
              set_p w (j_owner j) (mkBProc (b_pid p) (b_exit p) (b_hits p) (b_jar p) (Some f))
          | _, _ => w
          end
      | None => w
      end
  | Others n => mkWorld (q_procs w) (q_jobs w) (q_next w + Z.of_nat n) (q_asked w)
  end.
Definition q_events (w : World) (l : list QEvent) : World := fold_left q_event l w.

(** check_output(['bjobs', '-l', ..]) (80): CalledProcessError ([None]) for a number the queue does not
    know. *)
Definition bjobs (w : World) (id : Z) : option Text :=
  match job_of w id with
  | Some j => match j_state j with Gone => None | s => Some (bjobs_text id s) end
  | None => None
  end.

(** 37-51, with _tracking_process.py 42-65.  [found]: bsub can be executed (119-127).  Opening the file
    for text, pickle.dump raises TypeError in Python 3, where also the output of commands (62, 80) is
    bytes and .find of a str raises TypeError. *)
Definition b_new (w : World) (found : bool) : World * (BExn + nat) :=
  if found then
    if text_pickle dl then
      (mkWorld (q_procs w ++ [mkBProc None None None (Some (Whole None)) None]) (q_jobs w) (q_next w) (q_asked w),
       inr (List.length (q_procs w)))
    else (w, inl BType)
  else (w, inl BImport).

(** _tracking_process.py 67-73. *)
Definition b_set_hits (w : World) (i : nat) (h : list H) : World * (BExn + unit) :=
  match nth_error (q_procs w) i with
  | Some p => (set_p w i (mkBProc (b_pid p) (b_exit p) (Some h) (Some (Whole (Some h))) (b_out p)), inr tt)
  | None => (w, inl BIndex)
  end.

(** 74-89. *)
Definition b_alive (w : World) (i : nat) : World * (BExn + bool) :=
  match nth_error (q_procs w) i with
  | None => (w, inl BIndex)
  | Some p =>
      match b_pid p with
      | None => (w, inr false)
      | Some id =>
          match bjobs w id with
          | None => (w, inl BCalled)
          | Some s =>
              match read_status s with
              | None => (w, inl BValue)
              | Some (true, _) => (w, inr true)
              | Some (false, e) => (set_p w i (mkBProc (b_pid p) e (b_hits p) (b_jar p) (b_out p)), inr false)
              end
          end
      end
  end.

(** 53-72.  [es]: events between bjobs and bsub; [ok]: bsub takes the job (CalledProcessError
    otherwise).  If its text has no number in it the job is in the queue, and pid as it was. *)
Definition b_start (w : World) (i : nat) (es : list QEvent) (ok : bool) : World * (BExn + unit) :=
  match b_alive w i with
  | (w1, inl e) => (w1, inl e)
  | (w1, inr true) => (w1, inl BRuntime)
  | (w1, inr false) =>
      let w2 := q_events w1 es in
      if ok then
        let id := q_next w2 in
        let w3 := mkWorld (q_procs w2) (q_jobs w2 ++ [mkJob id i Pending]) (id + 1) (q_asked w2) in
        match job_number (bsub_text id), nth_error (q_procs w3) i with
        | Some n, Some p =>
            (set_p w3 i (mkBProc (Some n) (b_exit p) (b_hits p) (b_jar p) (b_out p)), inr tt)
        | None, _ => (w3, inl BValue)
        | _, None => (w3, inl BIndex)
        end
      else (w2, inl BCalled)
  end.

(** 91-103: terminate and kill, timeout not used. *)
Definition b_kill (w : World) (i : nat) : World * (BExn + unit) :=
  match nth_error (q_procs w) i with
  | None => (w, inl BIndex)
  | Some p =>
      match b_pid p with
      | None => (w, inl BRuntime)
      | Some id => (mkWorld (q_procs w) (q_jobs w) (q_next w) (q_asked w ++ [id]), inr tt)
      end
  end.

(** _tracking_process.py 114-124, as [TrackModel.join].  The result is [false] if the loop is still
    running at the end of [rounds]. *)
Fixpoint b_join (rounds : list (list QEvent)) (limit : option nat) (w : World) (i : nat)
  : World * (BExn + bool) :=
  match b_alive w i with
  | (w1, inl e) => (w1, inl e)
  | (w1, inr alive) =>
      if alive && (match limit with Some O => false | _ => true end)
      then match rounds with
           | [] => (w1, inr false)
           | es :: rest => b_join rest (option_map pred limit) (q_events w1 es) i
           end
      else (w1, inr true)
  end.

(** _tracking_process.py 126-144.  [e1], [e2] as in [TrackModel.get_return_value]. *)
Definition b_get (w : World) (i : nat) (e1 e2 : list QEvent) : World * (BExn + V) :=
  match b_alive w i with
  | (w1, inl e) => (w1, inl e)
  | (w1, inr true) => (w1, inl BRuntime)
  | (w1, inr false) =>
      match nth_error (q_procs w1) i with
      | None => (w1, inl BIndex)
      | Some p =>
          match b_exit p with
          | None => (w1, inl BRuntime)
          | Some _ =>
              let w2 := q_events w1 e1 in
              match nth_error (q_procs w2) i with
              | Some p2 =>
                  match b_out p2 with
                  | None => (w2, inl BRuntime)
                  | Some _ =>
                      let w3 := q_events w2 e2 in
                      match nth_error (q_procs w3) i with
                      | Some p3 =>
                          match b_out p3 with
                          | Some (Whole v) => (w3, inr v)
                          | Some Truncated => (w3, inl BEOF)
                          | None => (w3, inl BOS)
                          end
                      | None => (w3, inl BIndex)
                      end
                  end
              | None => (w2, inl BIndex)
              end
          end
      end
  end.

(** The calls of a user, and the passing of time. *)
Inductive BCall :=
| BNew (found : bool) | BSetHits (i : nat) (h : list H) | BStart (i : nat) (es : list QEvent) (ok : bool)
| BAlive (i : nat) | BKill (i : nat) | BJoin (i : nat) (rounds : list (list QEvent)) (limit : option nat)
| BGet (i : nat) (e1 e2 : list QEvent) | BWait (es : list QEvent).

Definition b_call (w : World) (c : BCall) : World :=
  match c with
  | BNew f => fst (b_new w f)
  | BSetHits i h => fst (b_set_hits w i h)
  | BStart i es ok => fst (b_start w i es ok)
  | BAlive i => fst (b_alive w i)
  | BKill i => fst (b_kill w i)
  | BJoin i r l => fst (b_join r l w i)
  | BGet i e1 e2 => fst (b_get w i e1 e2)
  | BWait es => q_events w es
  end.
Definition b_calls (n : Z) (l : list BCall) : World := fold_left b_call l (w_init n).
End Batch.
