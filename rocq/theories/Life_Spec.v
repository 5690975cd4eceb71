(** Vocabulary for the claims about the life of a node (C79-C82). *)
From Verif Require Import Base Jobqueue_Model Life_Model.

(** how often a loop (network in, network out, files) is served: by a thread of its own or by a
    periodic job *)
Definition is_loop (l : loop) (t : thread_start) : bool :=
  match l, t with LIn, TLoop LIn | LOut, TLoop LOut | LFile, TLoop LFile => true | _, _ => false end.
Definition same_loop (l m : loop) : bool :=
  match l, m with LIn, LIn | LOut, LOut | LFile, LFile => true | _, _ => false end.
Definition served (l : loop) (ts : list thread_start) (js : list loop) : nat :=
  length (filter (is_loop l) ts) + length (filter (same_loop l) js).
Definition is_manager (t : thread_start) : bool := match t with TManager => true | _ => false end.
Definition managers (ts : list thread_start) : nat := length (filter is_manager ts).

(** the callbacks a program registers between its first np_run and np_destroy *)
Definition is_add (a : api) : list (option nat) := match a with Add c => [c] | _ => [] end.
Definition registered (l : list api) : list (option nat) := flat_map is_add l.
Definition no_destroy (a : api) : Prop := match a with Destroy _ => False | _ => True end.
Definition no_run (a : api) : Prop := match a with Run => False | _ => True end.

(** executions of application threads and threads of the node *)
Definition reachable (started : list thread_start) (w : life) : Prop :=
  exists es, steps started life0 es = Some w.
Definition ended (t : thread) : Prop := th_pc t = WEnd.
(** events of which none is a new call of the application *)
Definition no_call (e : ev) : Prop := match e with CallRun _ | CallDestroy _ => False | _ => True end.
(** no step other than a new call is possible *)
Definition at_rest (started : list thread_start) (w : life) : Prop :=
  forall e w', no_call e -> step started w e <> Next w'.
(** the only application thread that takes steps is number [a] *)
Definition only (a : nat) (e : ev) : Prop :=
  match e with CallRun b | CallDestroy b | App b _ => b = a | _ => True end.
(** a worker that has seen the node running and found no job, or is about to look for one *)
Definition off_guard (t : thread) : Prop := th_kind t = KWorker /\ (th_pc t = WRun \/ th_pc t = WWait).
(** a periodic job that was run at the time [c] waits for its next time *)
Definition due_again (c : Z) (o : option job) : list job :=
  match o with
  | Some j => if j_periodic j then [mkJob (j_id j) (Z.max (c + j_interval j) c) (j_prio j) (j_interval j) true] else []
  | None => []
  end.
Fixpoint all_due_again (cs : list Z) (os : list (option job)) : list job :=
  match cs, os with c :: cs, o :: os => due_again c o ++ all_due_again cs os | _, _ => [] end.
(** the jobs that were run *)
Definition jobs_of (os : list (option job)) : list job := flat_map (fun o => match o with Some j => [j] | None => [] end) os.
