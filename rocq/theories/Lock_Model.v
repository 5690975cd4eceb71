(** Threads, the recursive mutexes of keys, networks and event loops, and which of them are taken
    while which others are held.  From include/np_threads.h, src/np_threads.c, src/np_key.c,
    src/np_eventqueue.c, src/core/np_comp_msgproperty.c, src/core/np_comp_alias.c, src/neuropil.c,
    src/np_legacy.c, src/np_network.c and src/np_evloop.c.

    Left out: locks that are never held while another one is taken (key cache, job queue,
    statistics, memory, the cache of message parts), the locks of identities, nodes and the route
    table, the locks that are only tried (np_network.c:399, np_evloop.c:146), and destroying of a
    mutex. *)
From Coq Require Import List Arith Bool.
Import ListNotations.

(** The mutexes: np_key_t.key_lock of the receiving and of the sending key of a channel
    (np_comp_msgproperty.c:419-420, include/np_key.h) and of an alias key, np_network_t.access_lock
    (include/np_network.h), the module lock of the event loop that reads (np_evloop.c:84-165). *)
Inductive lock :=
| Rx (s : nat)
| Tx (s : nat)
| AliasKey (a : nat)
| Access (n : nat)
| LoopIn.

Definition lock_eq_dec : forall a b : lock, {a = b} + {a <> b}.
Proof. decide equality; apply Nat.eq_dec. Defined.

(** What a thread does that matters here; [CbIn] / [CbOut]: a user callback of a channel is
    entered / returns. *)
Inductive act :=
| Acq (l : lock)
| Rel (l : lock)
| CbIn (s : nat)
| CbOut (s : nat).

(** ** The mutex *)

(** pthread mutex of type PTHREAD_MUTEX_RECURSIVE: its owner and how often the owner has taken it
    (np_threads.c:405-412) *)
Definition mutex := option (nat * nat).

(** np_threads.c:438-520 _np_threads_mutex_lock; [None]: the thread has to wait *)
Definition mutex_lock (t : nat) (m : mutex) : option mutex :=
  match m with
  | None => Some (Some (t, 1))
  | Some (u, n) => if u =? t then Some (Some (u, S n)) else None
  end.

(** np_threads.c:551-588 _np_threads_mutex_unlock; somebody else's mutex stays as it is (EPERM) *)
Definition mutex_unlock (t : nat) (m : mutex) : mutex :=
  match m with
  | Some (u, S (S n)) => if u =? t then Some (u, S n) else m
  | Some (u, _) => if u =? t then None else m
  | None => None
  end.

(** ** Threads *)

(** What each thread still has to do, the mutexes, and which callbacks were entered and left, by
    which thread, oldest first. *)
Record state := St {
  todo  : list (list act);
  locks : lock -> mutex;
  seen  : list (nat * act) }.

Definition set_lock (l : lock) (m : mutex) (f : lock -> mutex) : lock -> mutex :=
  fun x => if lock_eq_dec l x then m else f x.

Fixpoint set_nth {A} (i : nat) (x : A) (xs : list A) : list A :=
  match xs, i with
  | [], _ => []
  | _ :: r, 0 => x :: r
  | y :: r, S j => y :: set_nth j x r
  end.

(** One step of thread [t]; [None]: it has nothing to do or has to wait. *)
Definition step (t : nat) (st : state) : option state :=
  match nth t (todo st) [] with
  | [] => None
  | Acq l :: r =>
      match mutex_lock t (locks st l) with
      | Some m => Some (St (set_nth t r (todo st)) (set_lock l m (locks st)) (seen st))
      | None => None
      end
  | Rel l :: r =>
      Some (St (set_nth t r (todo st)) (set_lock l (mutex_unlock t (locks st l)) (locks st)) (seen st))
  | a :: r => Some (St (set_nth t r (todo st)) (locks st) (seen st ++ [(t, a)]))
  end.

(** The threads run in the order of the schedule; one that has to wait, waits. *)
Fixpoint run (sched : list nat) (st : state) : state :=
  match sched with
  | [] => st
  | t :: r => match step t st with Some st' => run r st' | None => run r st end
  end.

Definition start (progs : list (list act)) : state := St progs (fun _ => None) [].

(** include/np_threads.h:240-253 _LOCK_ACCESS, 272-277 _LOCK_MODULE *)
Definition locked (l : lock) (body : list act) : list act := Acq l :: body ++ [Rel l].

(** ** Channels *)

(** np_msg_mode_type: the flags INBOUND and OUTBOUND (include/np_types.h) *)
Record mode := Mode { inbound : bool; outbound : bool }.

(** np_comp_msgproperty.c:1483-1485 np_msgproperty_from_user *)
Inductive role := Provider | Consumer | Prosumer.
Definition mode_of_role (r : role) : mode :=
  match r with
  | Consumer => Mode true false
  | Provider => Mode false true
  | Prosumer => Mode true true
  end.

(** The configurations that the keys of the channels hold ([None]: the key does not exist): the
    receiving key's and the sending key's (np_comp_msgproperty.c:288-330). That they change while
    the threads run is left out: what np_send and np_add_receive_cb add is what they would find. *)
Record confs := Confs { rx_conf : nat -> option mode; tx_conf : nat -> option mode }.

(** np_key.c:571-606 _np_key_handle_event: the state machine of the key, and with it everything the
    transition does, runs under the lock of the key; np_eventqueue.c:157-221 a chain of events is
    executed by the thread that starts it. *)
Definition handle_event (l : lock) (transition : list act) : list act := locked l transition.

(** np_comp_msgproperty.c:411-465 np_msgproperty_register: an event for the receiving key if the
    mode has INBOUND, then one for the sending key if it has OUTBOUND *)
Definition register (s : nat) (m : mode) : list act :=
  (if inbound m then handle_event (Rx s) [] else []) ++
  (if outbound m then handle_event (Tx s) [] else []).

(** np_comp_msgproperty.c:375-405 _np_msgproperty_get_or_create *)
Definition get_or_create (found : option mode) (wanted : mode) : mode :=
  match found with Some m => m | None => wanted end.

(** What an application calls. *)
Inductive call :=
| Send (s : nat)
| AddReceiveCb (s : nat)
| HasReceiverFor (s : nat).

(** neuropil.c:640-735 np_send_to (the message itself goes to the job queue), np_legacy.c:299-328
    np_add_receive_listener, neuropil.c:558-600 np_has_receiver_for *)
Definition do_call (c : confs) (x : call) : list act :=
  match x with
  | Send s => register s (get_or_create (tx_conf c s) (Mode false true))
  | AddReceiveCb s => register s (get_or_create (rx_conf c s) (Mode true false))
  | HasReceiverFor s => match tx_conf c s with Some _ => locked (Tx s) [] | None => [] end
  end.

Definition do_calls (c : confs) (xs : list call) : list act := flat_map (do_call c) xs.

(** What a thread gets to do: a message of channel [s] is delivered to the user callbacks of the
    channel, each of which does some calls (np_comp_msgproperty.c:1995-2055
    __np_property_handle_in_msg, called by np_key.c:571-606); an event of the sending key; the
    application calls the library outside of a callback. *)
Inductive job :=
| Deliver (s : nat) (callbacks : list (list call))
| SendOut (s : nat)
| Api (xs : list call).

Definition callback (c : confs) (s : nat) (xs : list call) : list act :=
  CbIn s :: do_calls c xs ++ [CbOut s].

Definition do_job (c : confs) (j : job) : list act :=
  match j with
  | Deliver s cbs => handle_event (Rx s) (flat_map (callback c s) cbs)
  | SendOut s => handle_event (Tx s) []
  | Api xs => do_calls c xs
  end.

Definition threads (c : confs) (js : list (list job)) : state :=
  start (map (flat_map (do_job c)) js).

(** ** Reading from the network *)

(** np_network.c:857-898 _np_network_stop and 900-940 _np_network_start for a network that
    receives: the access lock of the network, and under it the lock of the loop
    (np_evloop.c:130-135 _np_event_suspend_loop_in / _np_event_resume_loop_in) *)
Definition network_stop (n : nat) : list act := locked (Access n) (locked LoopIn []).
Definition network_start (n : nat) : list act := locked (Access n) (locked LoopIn []).

(** What the reading loop gets: a packet of a peer whose alias key is there, of a peer that is not
    known yet, nothing at all (the other side has hung up). *)
Inductive input :=
| Packet (a : nat)
| Unknown
| Hangup (n : nat).

(** np_network.c:592-855 _np_network_read: 775-782 the state of the handshake is read under the lock
    of the alias key, 832-838 an empty read disables the network (1665-1670) *)
Definition read (i : input) : list act :=
  match i with
  | Packet a => locked (AliasKey a) []
  | Unknown => []
  | Hangup n => network_stop n
  end.

(** [Reading]: one round of the loop that reads; it holds the lock of the loop except while it
    polls (np_evloop.c:89-103, 121-125).  [AliasSet]: the handshake token of a peer comes to its
    alias key, np_comp_alias.c:271-303 __np_alias_set; [None]: the alias key has no network of its
    own (UDP); [Some n]: it has, as np_network.c:537-569 _np_network_accept gives it one (TCP).
    [AliasEnd]: np_comp_alias.c:1385-1388, the alias goes away. *)
Inductive netjob :=
| Reading (is : list input)
| AliasSet (a : nat) (own : option nat)
| AliasEnd (a : nat) (own : option nat)
| AliasEvent (a : nat).

Definition do_netjob (j : netjob) : list act :=
  match j with
  | Reading is => locked LoopIn (flat_map read is)
  | AliasSet a own =>
      handle_event (AliasKey a)
        (match own with Some n => network_stop n ++ network_start n | None => [] end)
  | AliasEnd a own =>
      handle_event (AliasKey a) (match own with Some n => network_stop n | None => [] end)
  | AliasEvent a => handle_event (AliasKey a) []
  end.

Definition netthreads (js : list (list netjob)) : state :=
  start (map (flat_map do_netjob) js).
