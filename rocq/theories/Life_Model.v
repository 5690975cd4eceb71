(** Model of the life of a node: starting its threads, running, shutdown callbacks and destruction.
    src/neuropil.c (np_run, np_destroy, np_add_shutdown_cb), src/np_threads.c, src/np_shutdown.c and
    the loop of src/np_jobqueue.c:675-698.  Sockets, memory and the other modules that np_destroy
    tears down afterwards are not modelled here. *)
From Verif Require Import Base Jobqueue_Model.

(** ** np_status, include/neuropil.h:107-113 *)
Definition np_uninitialized : Z := 1.
Definition np_running : Z := 2.
Definition np_stopped : Z := 3.
Definition np_shutdown : Z := 4.
(** src/np_threads.c:942, src/np_jobqueue.c:695-697: the condition to go on *)
Definition goes_on (status : Z) : bool := (np_uninitialized <? status) && (status <? np_shutdown).

(** ** Starting the threads, src/np_threads.c:1069-1172 *)
Inductive loop := LIn | LOut | LFile.
Inductive thread_start := TLoop (l : loop) | TManager | TWorker.
Definition s8 (x : Z) : Z := let y := x mod 256 in if y <? 128 then y else y - 256.

(** the worker loop, src/np_threads.c:1156-1165: [i] is an int8_t, [pool] a uint8_t; at most [steps] turns are made.
    The answer is what was started, and whether the loop has ended. *)
Fixpoint spawn (steps : nat) (i pool : Z) : list thread_start * bool :=
  if i <? pool then
    match steps with
    | O => ([], false)
    | S n => let '(l, e) := spawn n (s8 (i + 1)) pool in
             ((if i =? 0 then TManager else TWorker) :: l, e)
    end
  else ([], true).

(** one of the three blocks src/np_threads.c:1107-1119, 1122-1134, 1137-1150: a thread of its own, or a periodic job *)
Definition serve (l : loop) (workers : Z) (acc : Z * list thread_start * list loop) :=
  let '(pool, ts, js) := acc in
  if pool >? workers then (pool - 1, ts ++ [TLoop l], js) else (pool, ts, js ++ [l]).

(** np_threads_start_workers(context, settings->n_threads): n_threads is a uint32_t
    (include/neuropil.h:196), the parameter a uint8_t.  Threads, periodic jobs, loop ended? *)
Definition start_workers (steps : nat) (n_threads : Z) : list thread_start * list loop * bool :=
  let pool := u8 n_threads in
  let workers := u8 (pool / 2 + 1) in
  let '(pool', ts, js) := serve LFile workers (serve LOut workers (serve LIn workers (pool, [], []))) in
  let '(ws, e) := spawn steps 0 pool' in
  (ts ++ ws, js, e).

(** ** np_run(context, duration): the loop, src/np_jobqueue.c:675-698.
    One turn: what the two trylocks of the queue answer, the jobs submitted by other threads (or by the
    job itself) meanwhile, and the status and the clock read at the end of the turn.  How long the turn
    sleeps is part of the clock reading. *)
Record turn := mkTurn { t_0 : bool; t_1 : bool; t_new : list job; t_status : Z; t_now : Z }.

Fixpoint submit_all (s : jq) (js : list job) : outcome jq :=
  match js with
  | [] => Ok s
  | j :: js => obind (jq_insert s j) (fun '(_, s') => submit_all s' js)
  end.

(** src/np_jobqueue.c:660-673: at most one job is taken and run *)
Definition run_once (s : jq) (now : Z) (t : turn) : outcome (option job * jq) :=
  obind (jq_select s now (t_0 t) (t_1 t)) (fun '(_, oj, s1) =>
  obind (submit_all s1 (t_new t)) (fun s2 =>
  match oj with
  | Some j => obind (jq_finish s2 j now) (fun s3 => Ok (Some j, s3))
  | None => Ok (None, s2)
  end)).

(** the jobs run so far, the queue, the turns that were not needed; None: the turns ran out *)
Fixpoint run_for (s : jq) (now fin : Z) (ran : list job) (ts : list turn)
  : outcome (option (list job * jq * list turn)) :=
  match ts with
  | [] => Ok None
  | t :: ts =>
      obind (run_once s now t) (fun '(oj, s') =>
      let ran' := match oj with Some j => ran ++ [j] | None => ran end in
      if (fin >? t_now t) && goes_on (t_status t) then run_for s' (t_now t) fin ran' ts
      else Ok (Some (ran', s', ts)))
  end.
Definition run_jobs_for (s : jq) (now duration : Z) (ts : list turn) := run_for s now (now + duration) [] ts.

(** ** Shutdown callbacks, src/np_shutdown.c
    A callback is a number, NULL is None.  [again c]: callback [c] calls np_add_shutdown_cb itself. *)
Inductive result (A : Type) := Done (a : A) | Hang | Fault.
Arguments Done {A} a. Arguments Hang {A}. Arguments Fault {A}.

Record node := mkNode {
  n_status : Z;
  n_module : option (list (option nat));   (* the shutdown module with its list, or not initialised *)
  n_log : list nat;                        (* callbacks called, oldest first *)
  n_left : option nat;                     (* leave notices sent, after that many callbacks *)
  n_freed : bool }.
Definition node0 : node := mkNode np_stopped None [] None false.

(** src/np_shutdown.c:75-85 *)
Definition add_callback (n : node) (c : option nat) : node :=
  match n_module n with
  | None => n
  | Some l => mkNode (n_status n) (Some (l ++ [c])) (n_log n) (n_left n) (n_freed n)
  end.
(** src/np_shutdown.c:87-97 *)
Definition shutdown_init (n : node) : node :=
  match n_module n with
  | None => mkNode (n_status n) (Some []) (n_log n) (n_left n) (n_freed n)
  | Some _ => n
  end.
(** src/np_shutdown.c:129-143: the list lock (a spinlock, not recursive) is held while the callbacks
    run; sll_head answers NULL for an empty list and for a NULL entry.  [notify] is the entry that
    np_destroy appends for _np_shutdown_notify_others, src/neuropil.c:1103-1105: it is written None
    in [entries] below because it is no callback of the user, and marked by Some/None of [entry]. *)
Inductive entry := User (c : option nat) | Notify.
Fixpoint run_entries (again : nat -> bool) (es : list entry) (log : list nat) (gone : option nat)
  : result (list nat * option nat) :=
  match es with
  | [] => Done (log, gone)
  | User None :: _ => Done (log, gone)
  | User (Some c) :: es => if again c then Hang else run_entries again es (log ++ [c]) gone
  | Notify :: es => run_entries again es log (Some (length log))
  end.

(** src/neuropil.c:997-1044, as far as the shutdown module goes *)
Definition api_run (n : node) : result node :=
  if n_freed n then Fault else
  let n := if n_status n =? np_stopped then shutdown_init n else n in
  if n_status n =? np_shutdown then Done n
  else Done (mkNode np_running (n_module n) (n_log n) (n_left n) (n_freed n)).
(** src/neuropil.c:1046-1051 *)
Definition api_add (n : node) (c : option nat) : result node :=
  if n_freed n then Fault else Done (add_callback n c).
(** src/neuropil.c:1091-1153 called by the application (no second call is under way) *)
Definition api_destroy (again : nat -> bool) (n : node) (gracefully : bool) : result node :=
  if n_freed n then Fault else
  match n_module n with
  | None => Done (mkNode np_shutdown None (n_log n) (n_left n) true)
  | Some l =>
      match run_entries again (map User l ++ if gracefully then [Notify] else []) (n_log n) (n_left n) with
      | Done (log, gone) => Done (mkNode np_shutdown None log gone true)
      | Hang => Hang
      | Fault => Fault
      end
  end.

Inductive api := Run | Add (c : option nat) | Destroy (gracefully : bool).
Definition api_step (again : nat -> bool) (n : node) (a : api) : result node :=
  match a with Run => api_run n | Add c => api_add n c | Destroy g => api_destroy again n g end.
Fixpoint api_steps (again : nat -> bool) (n : node) (l : list api) : result node :=
  match l with
  | [] => Done n
  | a :: l => match api_step again n a with Done n' => api_steps again n' l | Hang => Hang | Fault => Fault end
  end.

(** ** Threads that run, and threads of the application calling np_run and np_destroy.
    Every region protected by a lock is one step.  *)
(** a thread of the node, src/np_threads.c:928-962 (__np_thread_status_wrapper) with run_fn
    __np_jobqueue_run_jobs (src/np_jobqueue.c:702-717) for manager and workers *)
Inductive wpc :=
| WCheck      (* about to read the status *)
| WRun        (* has seen np_running: looks for a job *)
| WWait       (* found none: about to wait for the condition of the queue *)
| WBlocked    (* waits *)
| WEnd.
Inductive kind := KManager | KWorker | KLoop.
Record thread := mkThread { th_kind : kind; th_pc : wpc; th_cancel : bool }.

(** a thread of the application *)
Inductive apc :=
| AOut                                (* in no call *)
| AScope | ARead | ASet | ALoop       (* np_run: src/neuropil.c:1012-1034, 1036, 1040, 1041 *)
| DFlag | DSet | DBcast | DSig (k : nat) | DJoin (k : nat) | DFree.
                                      (* np_destroy: 1095-1101, 1126; np_threads_shutdown_workers,
                                         src/np_threads.c:1007, 1018-1037, 1039-1061; free *)
Record life := mkLife {
  l_status : Z; l_flag : bool; l_freed : bool; l_starts : nat;
  l_threads : list thread; l_app : nat -> apc }.
Definition life0 : life := mkLife np_stopped false false 0 [] (fun _ => AOut).

Inductive ev :=
| CallRun (a : nat) | CallDestroy (a : nat)
| App (a : nat) (c : nat)        (* application thread [a] takes its next step, [c] resolves choices *)
| Thr (i : nat) (c : bool)       (* thread [i] of the node; [c]: it found a job / it is cancelled *)
| Timeout (i : nat).             (* the timed wait of the manager ends *)
Inductive step_result := Next (w : life) | Disabled | Broken.

Definition set_app (w : life) (a : nat) (p : apc) : life :=
  mkLife (l_status w) (l_flag w) (l_freed w) (l_starts w) (l_threads w)
         (fun b => if Nat.eqb b a then p else l_app w b).
Definition set_threads (w : life) (l : list thread) : life :=
  mkLife (l_status w) (l_flag w) (l_freed w) (l_starts w) l (l_app w).
Definition set_status (w : life) (s : Z) : life :=
  mkLife s (l_flag w) (l_freed w) (l_starts w) (l_threads w) (l_app w).
Definition set_thread (w : life) (i : nat) (t : thread) : life := set_threads w (upd (l_threads w) i t).

Definition start_of (t : thread_start) : thread :=
  mkThread (match t with TLoop _ => KLoop | TManager => KManager | TWorker => KWorker end) WCheck false.
Definition blocked (t : thread) : bool := match th_pc t with WBlocked => true | _ => false end.
Definition wake (t : thread) : thread := if blocked t then mkThread (th_kind t) WCheck (th_cancel t) else t.

(** [started] are the threads np_threads_start_workers creates *)
Definition app_step (started : list thread_start) (w : life) (a c : nat) : step_result :=
  match l_app w a with
  | AOut => Disabled
  | p =>
  if l_freed w then Broken else
  match p with
  | AOut => Disabled
  (* src/neuropil.c:1012-1034, TSP_SCOPE(context->status) *)
  | AScope =>
      if l_status w =? np_stopped then
        Next (set_app (mkLife (l_status w) (l_flag w) (l_freed w) (S (l_starts w))
                (l_threads w ++ map start_of started) (l_app w)) a ARead)
      else Next (set_app w a ARead)
  (* 1036-1037 *)
  | ARead => Next (set_app w a (if l_status w =? np_shutdown then AOut else ASet))
  (* 1040 *)
  | ASet => Next (set_app (set_status w np_running) a ALoop)
  (* src/np_jobqueue.c:684-697; [c] = 0: the time is not over *)
  | ALoop => Next (set_app w a (if goes_on (l_status w) && Nat.eqb c 0 then ALoop else AOut))
  (* src/neuropil.c:1095-1101 *)
  | DFlag => if l_flag w then Next (set_app w a AOut)
             else Next (set_app (mkLife (l_status w) true (l_freed w) (l_starts w) (l_threads w) (l_app w)) a DSet)
  (* 1126 *)
  | DSet => Next (set_app (set_status w np_shutdown) a DBcast)
  (* src/np_threads.c:1007 *)
  | DBcast => Next (set_app (set_threads w (map wake (l_threads w))) a (DSig 0))
  (* src/np_threads.c:1018-1037: signal (one waiting thread wakes up) for a worker, cancel for a loop;
     for a manager neither *)
  | DSig k =>
      match nth_error (l_threads w) k with
      | None => Next (set_app w a (DJoin 0))
      | Some t =>
          match th_kind t with
          | KManager => Next (set_app w a (DSig (S k)))
          | KLoop => Next (set_app (set_thread w k (mkThread (th_kind t) (th_pc t) true)) a (DSig (S k)))
          | KWorker =>
              if existsb blocked (l_threads w) then
                match nth_error (l_threads w) c with
                | Some u => if blocked u then Next (set_app (set_thread w c (wake u)) a (DSig (S k))) else Disabled
                | None => Disabled
                end
              else Next (set_app w a (DSig (S k)))
          end
      end
  (* src/np_threads.c:1039-1061: pthread_join waits for the end of thread [k] *)
  | DJoin k =>
      match nth_error (l_threads w) k with
      | None => Next (set_app w a DFree)
      | Some t => match th_pc t with WEnd => Next (set_app w a (DJoin (S k))) | _ => Disabled end
      end
  (* src/neuropil.c:1131-1153: the modules and the context are freed *)
  | DFree => Next (set_app (mkLife (l_status w) (l_flag w) true (l_starts w) (l_threads w) (l_app w)) a AOut)
  end
  end.

Definition thread_step (w : life) (i : nat) (c : bool) : step_result :=
  match nth_error (l_threads w) i with
  | None => Disabled
  | Some t =>
    match th_pc t with
    | WEnd => Disabled
    | WBlocked => Disabled
    | p =>
      if l_freed w then Broken else
      (* pthread_cancel takes effect at the next cancellation point *)
      if th_cancel t && c then Next (set_thread w i (mkThread (th_kind t) WEnd true)) else
      match p with
      (* src/np_threads.c:940-954 *)
      | WCheck =>
          let p' := if goes_on (l_status w) then (if l_status w =? np_running then WRun else WCheck) else WEnd in
          Next (set_thread w i (mkThread (th_kind t) p' (th_cancel t)))
      (* src/np_jobqueue.c:704-705: ran a job, or there was none; a loop thread polls its sockets *)
      | WRun =>
          let p' := match th_kind t with KLoop => WCheck | _ => if c then WCheck else WWait end in
          Next (set_thread w i (mkThread (th_kind t) p' (th_cancel t)))
      (* src/np_jobqueue.c:706-716 *)
      | WWait => Next (set_thread w i (mkThread (th_kind t) WBlocked (th_cancel t)))
      | _ => Disabled
      end
    end
  end.

(** src/np_jobqueue.c:709-712: only the manager waits with a time limit *)
Definition timeout_step (w : life) (i : nat) : step_result :=
  match nth_error (l_threads w) i with
  | Some t => match th_kind t, th_pc t with
              | KManager, WBlocked => if l_freed w then Broken
                                      else Next (set_thread w i (mkThread KManager WCheck (th_cancel t)))
              | _, _ => Disabled
              end
  | None => Disabled
  end.

Definition call (w : life) (a : nat) (p : apc) : step_result :=
  match l_app w a with AOut => Next (set_app w a p) | _ => Disabled end.

Definition step (started : list thread_start) (w : life) (e : ev) : step_result :=
  match e with
  | CallRun a => call w a AScope
  | CallDestroy a => call w a DFlag
  | App a c => app_step started w a c
  | Thr i c => thread_step w i c
  | Timeout i => timeout_step w i
  end.

(** executions: [Some w] after all events, None if one of them was not possible or broke *)
Fixpoint steps (started : list thread_start) (w : life) (es : list ev) : option life :=
  match es with
  | [] => Some w
  | e :: es => match step started w e with Next w' => steps started w' es | _ => None end
  end.
