(** Model of src/np_jobqueue.c on top of the binary heap.
    Times (double) are integers in units of 1e-12 s: rounding, NaN and infinities of doubles are
    not modelled.  Of a job only the fields used for scheduling are kept, plus an identity
    [j_id] that stands for the payload (event, callback list). *)
From Verif Require Import Base Heap_Model.

(** src/np_jobqueue.c:45-65 *)
Record job := mkJob { j_id : Z; j_ts : Z; j_prio : Z; j_interval : Z; j_periodic : bool }.
Definition job0 : job := mkJob 0 0 0 0 false.

(** src/np_jobqueue.c:69-81 *)
Definition job_compare_scheduling (new_job old_job : job) : Z :=
  if j_ts old_job >? j_ts new_job then -1
  else if j_ts old_job <? j_ts new_job then 1
  else if j_prio old_job >? j_prio new_job then -1
  else if j_prio old_job <? j_prio new_job then 1
  else 0.
(** src/np_jobqueue.c:83-85 *)
Definition job_before (new_job old_job : job) : bool := job_compare_scheduling new_job old_job =? -1.

(** include/np_settings.h:273, 302 ; src/np_jobqueue.c:132 *)
Definition JOBQUEUE_MAX_SIZE : nat := 512.
Definition MAX_SLEEP : Z := 31415926535.
Definition NINE_SEC : Z := 9000000000000.

(** src/np_jobqueue.c:95-108: one queue with its cached next schedule *)
Record lane := mkLane { l_heap : heap job; l_next : Z }.
(** queue 0 holds periodic jobs, queue 1 all others *)
Record jq := mkJq { lane0 : lane; lane1 : lane }.
Definition get_lane (s : jq) (i : bool) : lane := if i then lane0 s else lane1 s.
Definition set_lane (s : jq) (i : bool) (l : lane) : jq :=
  if i then mkJq l (lane1 s) else mkJq (lane0 s) l.

(** src/np_jobqueue.c:367-383: [size] is settings->jobqueue_size *)
Definition jq_init (size : nat) : jq :=
  mkJq (mkLane (heap_init job0 size) 0) (mkLane (heap_init job0 size) 0).

(** src/np_jobqueue.c:203-223 (the locked region of _np_jobqueue_insert), one lane *)
Definition lane_insert (l : lane) (j : job) : outcome (bool * lane) :=
  if Nat.leb JOBQUEUE_MAX_SIZE (hcount (l_heap l) + 1) then Ok (false, l)
  else obind (heap_insert job_before (l_heap l) j) (fun h =>
       obind (heap_first h) (fun f => Ok (true, mkLane h (j_ts f)))).

(** src/np_jobqueue.c:193-240; the queue is chosen by is_periodic *)
Definition jq_insert (s : jq) (j : job) : outcome (bool * jq) :=
  obind (lane_insert (get_lane s (j_periodic j)) j) (fun '(ok, l) => Ok (ok, set_lane s (j_periodic j) l)).

(** src/np_jobqueue.c:136-155: one iteration of the search loop; [locked] is the trylock result *)
Definition peek_lane (l : lane) (qi : bool) (now : Z) (locked : bool) (acc : option bool * Z) : option bool * Z :=
  if locked && (l_next l <? now) && negb (heap_is_empty (l_heap l)) then
    (if l_next l <? snd acc then Some qi else fst acc,
     if l_next l <? snd acc then l_next l else snd acc)
  else acc.

(** src/np_jobqueue.c:164-187: locked removal of the head *)
Definition pop_lane (l : lane) : outcome (option job * lane) :=
  if heap_is_empty (l_heap l) then Ok (None, l)
  else obind (heap_head job_before (l_heap l)) (fun '(j, h) =>
       if heap_is_empty h then Ok (Some j, mkLane h 0)
       else obind (heap_first h) (fun f => Ok (Some j, mkLane h (j_ts f)))).

(** src/np_jobqueue.c:126-191; [t0], [t1] are the results of the two trylocks.
    Returns the sleep time, the job copied to the buffer (if any) and the queue. *)
Definition jq_select (s : jq) (now : Z) (t0 t1 : bool) : outcome (Z * option job * jq) :=
  let acc := peek_lane (lane0 s) true now t0 (None, now + NINE_SEC) in
  let acc := peek_lane (lane1 s) false now t1 acc in
  let ret := if snd acc - now <? MAX_SLEEP then snd acc - now else MAX_SLEEP in
  match fst acc with
  | None => Ok (ret, None, s)
  | Some qi => obind (pop_lane (get_lane s qi)) (fun '(j, l) =>
      Ok (match j with Some _ => 0 | None => ret end, j, set_lane s qi l))
  end.

(** src/np_jobqueue.c:644-651: after running, a periodic job goes back; Abort when refused *)
Definition jq_finish (s : jq) (j : job) (started_at : Z) : outcome jq :=
  if j_periodic j then
    let ts := Z.max (started_at + j_interval j) started_at in
    obind (jq_insert s (mkJob (j_id j) ts (j_prio j) (j_interval j) true)) (fun '(ok, s') =>
      if ok then Ok s' else Abort)
  else Ok s.

(** src/np_jobqueue.c:719-731 *)
Definition jq_count (s : jq) : nat := hcount (l_heap (lane0 s)) + hcount (l_heap (lane1 s)).

(** jobs waiting, as a list in array order *)
Definition jq_jobs (s : jq) : list job := heap_list (l_heap (lane0 s)) ++ heap_list (l_heap (lane1 s)).

(** ---- concurrent workers ----
    Every lock protected region is one atomic step; [np_spinlock_trylock] may fail at any time.
    src/np_jobqueue.c:134-156 is two steps, src/np_jobqueue.c:162-188 the third. *)
Inductive wpc :=
| Idle
| Peek0 (now : Z)
| Peek1 (now : Z) (acc : option bool * Z)
| Popping (now : Z) (qi : bool).

Record world := mkWorld {
  w_q : jq;
  w_pc : nat -> wpc;
  w_accepted : list job;          (* history: jobs for which insert answered true *)
  w_taken : list (nat * Z * job)  (* history: worker, its "now", job handed out *)
}.
Definition setpc (pc : nat -> wpc) (w : nat) (p : wpc) : nat -> wpc :=
  fun k => if Nat.eqb k w then p else pc k.

Inductive event :=
| EvInsert (j : job)              (* any thread submits (or re-submits) a job *)
| EvBegin (w : nat) (now : Z)
| EvPeek0 (w : nat) (locked : bool)
| EvPeek1 (w : nat) (locked : bool)
| EvPop (w : nat).

Definition world_init (size : nat) : world := mkWorld (jq_init size) (fun _ => Idle) [] [].

(** one step; a step that is not enabled leaves the world alone *)
Definition wstep (x : world) (e : event) : outcome world :=
  match e with
  | EvInsert j =>
      obind (jq_insert (w_q x) j) (fun '(ok, q) =>
        Ok (mkWorld q (w_pc x) (if ok then j :: w_accepted x else w_accepted x) (w_taken x)))
  | EvBegin w now =>
      match w_pc x w with
      | Idle => Ok (mkWorld (w_q x) (setpc (w_pc x) w (Peek0 now)) (w_accepted x) (w_taken x))
      | _ => Ok x
      end
  | EvPeek0 w locked =>
      match w_pc x w with
      | Peek0 now =>
          let acc := peek_lane (lane0 (w_q x)) true now locked (None, now + NINE_SEC) in
          Ok (mkWorld (w_q x) (setpc (w_pc x) w (Peek1 now acc)) (w_accepted x) (w_taken x))
      | _ => Ok x
      end
  | EvPeek1 w locked =>
      match w_pc x w with
      | Peek1 now acc =>
          let acc := peek_lane (lane1 (w_q x)) false now locked acc in
          let p := match fst acc with None => Idle | Some qi => Popping now qi end in
          Ok (mkWorld (w_q x) (setpc (w_pc x) w p) (w_accepted x) (w_taken x))
      | _ => Ok x
      end
  | EvPop w =>
      match w_pc x w with
      | Popping now qi =>
          obind (pop_lane (get_lane (w_q x) qi)) (fun '(oj, l) =>
            Ok (mkWorld (set_lane (w_q x) qi l) (setpc (w_pc x) w Idle) (w_accepted x)
                  (match oj with Some j => (w, now, j) :: w_taken x | None => w_taken x end)))
      | _ => Ok x
      end
  end.

Fixpoint wrun (x : world) (es : list event) : outcome world :=
  match es with
  | [] => Ok x
  | e :: es => obind (wstep x e) (fun x' => wrun x' es)
  end.
