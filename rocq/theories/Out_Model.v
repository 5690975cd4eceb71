(** Where a message goes when it leaves the node: src/np_axon.c:167-523, 600-675 (_np_out_default, _np_out_forward, _np_out_ack,
    _np_out_available_messages, __np_axon_send_chunks), src/core/np_comp_alias.c:1146-1207.
    Simplified: the pheromone table and the key cache do not change while one of these functions runs; target values are in 1/2560 (the ages
    of the table are in 1/256), without the rounding of floats; only the job of the random bucket of _np_pheromone_exhale is given from outside;
    a part and a whole message are the same. *)
From Verif Require Import Base Dhkey_Model Bloom_Model Pheromone_Model Data_Model.

Definition lift {A} (o : outcome A) : Data_Model.run A := match o with Ok x => Done x | Abort => Aborts | UB => Undef end.

(** what the key cache has under an id: a key without node information (entity_array[e_nodeinfo] is NULL or something else: subjects,
    identities), or a node, which is or is not in leafset or routing table *)
Inductive entry := NoNode | Node (in_tables : bool).
(** [w_room]: free places of the job queue *)
Record world := mkW { w_me : key; w_cache : key -> option entry; w_connected : bool; w_table : table; w_room : nat }.
(** include/np_message.h, np_messagepart.h: header and the rest *)
Record message := mkM { m_subject : key; m_audience : key; m_forwarded : bool; m_hops : Z; m_rest : list Z }.
(** a job: message for the next hop, with the target of the event *)
Record copy := mkCopy { c_hop : key; c_target : key; c_message : message }.

(** np_keycache.c:102-126 _np_keycache_exists *)
Definition exists_key (w : world) (k : key) : bool := match w_cache w k with Some _ => true | None => false end.
(** np_axon.c:167-236 __np_axon_send_chunks: a clone for each hop; the answer of the job queue is not looked at *)
Definition send_chunks (w : world) (m : message) (to : key) (l : list key) : bool * list copy :=
  let hops := filter (fun h => negb (np_dhkey_equal h (w_me w)) && exists_key w h) l in
  (match hops with [] => false | _ => true end, firstn (w_room w) (map (fun h => mkCopy h to m) hops)).

(** a demand in 1/2560 for the ages in 1/256 *)
Definition demand (t : Z) : Z := - ((- t) / 10).
(** np_axon.c:377-384: at most 8 rounds *)
Fixpoint default_rounds (n : nat) (tb : table) (s : key) (t : Z) : outcome (list key) :=
  match n with
  | O => Ok []
  | S n => obind (snuffle_receiver tb s (demand t)) (fun '(ks, cur) => match ks with [] => default_rounds n tb s (10 * cur - 256) | _ => Ok ks end)
  end.
(** np_axon.c:357-404 _np_out_default *)
Definition out_default (w : world) (m : message) : Data_Model.run (bool * list copy) :=
  if negb (w_connected w) then Done (false, [])
  else rbind (lift (default_rounds 8 (w_table w) (m_subject m) 2560)) (fun l =>
    match l with [] => Done (false, []) | _ => Done (send_chunks w m (m_audience m) l) end).

(** sll_remove, sll_delete of the first one found *)
Fixpoint remove_first (k : key) (l : list key) : list key :=
  match l with [] => [] | x :: l => if np_dhkey_equal x k then l else x :: remove_first k l end.
(** np_axon.c:260-271 *)
Fixpoint forward_rounds (n : nat) (tb : table) (s prev : key) (t : Z) : outcome (list key) :=
  match n with
  | O => Ok []
  | S n => obind (snuffle_receiver tb s (demand t)) (fun '(ks, cur) =>
      match remove_first prev ks with [] => forward_rounds n tb s prev (10 * cur - 256) | l => Ok l end)
  end.
(** np_axon.c:242-355 _np_out_forward; [prev]: the neighbour it came from (event.target_dhkey); [bucket]: the random number of
    _np_pheromone_exhale; the table afterwards.  hop_count is uint16_t. *)
Definition out_forward (w : world) (prev : key) (m : message) (bucket : Z) : Data_Model.run (bool * list copy * table) :=
  if negb (w_connected w) then Done (false, [], w_table w)
  else rbind (lift (forward_rounds 8 (w_table w) (m_subject m) prev 2560)) (fun l =>
    let l := remove_first prev l in
    let m := mkM (m_subject m) (m_audience m) (m_forwarded m) (u16 (m_hops m + 1)) (m_rest m) in
    let '(r, cs) := send_chunks w m (m_audience m) l in
    rbind (lift (exhale (w_table w) bucket)) (fun tb => Done (r, cs, tb))).

(** what an announcement looks for: 444-454 *)
Inductive wanted := Receivers | Senders | Neither.
(** np_axon.c:457-484: the demand falls by 0.1 in each of 9 rounds *)
Fixpoint available_rounds (n : nat) (tb : table) (s : key) (want : wanted) (t : Z) : outcome (list key) :=
  match n with
  | O => Ok []
  | S n =>
    match want with
    | Neither => Ok []
    | _ => obind (if match want with Receivers => true | _ => false end then snuffle_receiver tb s (demand t) else snuffle_sender tb s (demand t))
             (fun '(ks, _) => match ks with [] => available_rounds n tb s want (t - 256) | _ => Ok ks end)
    end
  end.
(** np_axon.c:406-523 _np_out_available_messages: the subject looked for is the audience *)
Definition out_available (w : world) (prev : key) (want : wanted) (m : message) (bucket : Z) : Data_Model.run (bool * list copy * table) :=
  let m := if m_forwarded m then mkM (m_subject m) (m_audience m) true (u16 (m_hops m + 1)) (m_rest m) else m in
  if negb (w_connected w) then Done (false, [], w_table w)
  else rbind (lift (available_rounds 9 (w_table w) (m_audience m) want 2560)) (fun l =>
    let l := remove_first prev l in
    let '(r, cs) := match l with [] => (false, []) | _ => send_chunks w m (m_audience m) l end in
    rbind (lift (exhale (w_table w) bucket)) (fun tb => Done (r, cs, tb))).

(** np_axon.c:643-646: BAD_LINK is 0.25 (np_settings.h:247); [fuel]: rounds looked at *)
Fixpoint ack_rounds (fuel : nat) (tb : table) (s : key) (t : Z) : Data_Model.run (list key) :=
  if t <=? 640 then Done [] else
  match fuel with
  | O => Hangs
  | S f => rbind (lift (snuffle_receiver tb s (demand t))) (fun '(ks, cur) => match ks with [] => ack_rounds f tb s (10 * cur - 256) | _ => Done ks end)
  end.
(** np_axon.c:600-675 _np_out_ack; [ack]: the hash of the text "_NP.ACK" (np_generate_subject xors it to the audience) *)
Definition out_ack (fuel : nat) (w : world) (ack : key) (m : message) : Data_Model.run (bool * list copy) :=
  if negb (w_connected w) then Done (false, [])
  else rbind (match w_cache w (m_audience m) with
              | None => ack_rounds fuel (w_table w) (np_dhkey_xor ack (m_audience m)) 2560
              | Some NoNode => Undef
              | Some (Node true) => Done [m_audience m]
              | Some (Node false) => Done []
              end) (fun l => Done (send_chunks w m (m_audience m) l)).

(** np_comp_alias.c:1146-1207 __np_handle_np_forward (called only for messages with another audience than this node, 737-773, from the
    alias of an accepted neighbour): acknowledgements and other messages.  [is_ack]: the subject is "_NP.ACK".
    Left out: the pheromone inhaled for the audience. *)
Definition forward (fuel : nat) (w : world) (ack prev : key) (m : message) (bucket : Z) : Data_Model.run (bool * list copy) :=
  let m := mkM (m_subject m) (m_audience m) true (m_hops m) (m_rest m) in
  if np_dhkey_equal ack (m_subject m) then out_ack fuel w ack m
  else rbind (out_forward w prev m bucket) (fun '(r, cs, _) => Done (r, cs)).
