(** Vocabulary for the claims about messages of applications (C83-C85). *)
From Verif Require Import Base Heap_Model Jobqueue_Model Jobqueue_Proofs Tree_Model Treeval_Model Data_Model Data_Spec Deliver_Model.

(** a block of attributes of the size the API has, made by a sequence of writes *)
Definition written (ws : list (list Z * datum)) (b : list Z) : Prop :=
  exists b0 b1 rs, Z.of_nat (length b0) = 10240 /\ np_init_datablock b0 10240 = Done (np_data_ok, b1) /\ writes ws b1 = Done (rs, b).
(** what is in it *)
Definition content (ws : list (list Z * datum)) : store := snd (spec_writes 10240 ws []).
(** "_np.from" *)
Definition from_key : list Z := [95; 110; 112; 46; 102; 114; 111; 109].
(** The attributes a message has by the order of the calls: the sender, the attributes of messages, those shared with the
    identity, those shared with intents; each as far as there is room *)
Definition sent_store (me : list Z) (w0 w3 w4 : list (list Z * datum)) : store :=
  let add ws s := snd (spec_merge 10240 (content ws) s) in add w4 (add w3 (add w0 [(from_key, DBin me)])).
(** the caches of a node (six, in the order of the enumeration): those used for messages were made by these writes *)
Definition caches_of (w0 w3 w4 : list (list Z * datum)) (cs : list (list Z)) : Prop :=
  exists b0 b1 b2 b3 b4 b5, cs = [b0; b1; b2; b3; b4; b5] /\ written w0 b0 /\ written w3 b3 /\ written w4 b4 /\
    Forall good_entry (w0 ++ w3 ++ w4) /\ few_keys ((from_key, DBin []) :: w0 ++ w3 ++ w4).
Definition sizes (l : store) : Z := fold_right (fun e s => Z.of_nat (length (Data_Model.encode (fst e) (snd e))) + s) 0 l.
Definition first_of (k : list Z) (ls : list store) : option datum :=
  fold_right (fun l o => match lookup k l with Some v => Some v | None => o end) None ls.
Definition answer (o : option datum) : run (rc * option datum) :=
  Done (match o with Some v => (np_data_ok, Some v) | None => (np_key_not_found, None) end).
(** what is read as the sender *)
Definition sender_of (o : option datum) : run (list Z) :=
  match o with
  | None => Done (repeat 0 32)
  | Some (DBin b) | Some (DStr b) => if (length b =? 32)%nat then Done b else Aborts
  | Some _ => Aborts
  end.

(** ** The queue (C84) *)
(** queues of a node: of a size of at least 511 jobs, after any sequence of submissions and runs of jobs *)
Definition node_queue (q : jq) : Prop := exists n os h, (511 <= n)%nat /\ Z.of_nat n <= 32767 /\ jop_run (jq_init n) ([], []) os = Ok (q, h).
(** jobs waiting in the part of the queue a message goes to *)
Definition waiting (q : jq) (j : job) : nat := hcount (l_heap (get_lane q (j_periodic j))).

(** ** Callbacks (C85) *)
Definition register (cs : list callback) : list callback := fold_left (fun l c => snd (add_receive_cb false true l c)) cs [].
(** the documented reading: in order, until one answers false; the message is received if none does *)
Fixpoint documented (cs : list callback) (m : message) : list (nat * message) * bool :=
  match cs with
  | [] => ([], true)
  | c :: cs => if cb_fn c m then let (calls, ret) := documented cs m in ((cb_name c, m) :: calls, ret) else ([(cb_name c, m)], false)
  end.
