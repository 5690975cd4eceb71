(** Acknowledgements and redelivery on the sending node (src/np_axon.c, src/np_dendrit.c, src/np_message.c,
    src/core/np_comp_msgproperty.c).

    A message that wants an acknowledgement of its destination leaves two traces: a response handler in the tree of the property
    of the acknowledgements, and a copy in the tree of its own channel.  Each chain of events of the event loop is one step here:
    what a check puts on the chain has been done when the next step begins.

    Not modelled: the tree of the copies (C16-C19; a list here, in order of arrival; uuids of different channels do not meet), the
    encryption of the message (C68-C71), the limit of the channel (C57), the check whether the key of a pinged node still exists,
    reference counts, chains of more than 255 events (C30).  Times are whole numbers of some small unit, not doubles. *)
From Verif Require Import Base Rbtree_Model Tree_Model.
From Coq Require Import List.

(** The 16 bytes of a message id *)
Notation uuid := (list Z).

(** np_responsecontainer.h: [r_msg] the handler belongs to a message of a channel (msg_dhkey), else to a ping (dest_dhkey);
    [r_received] is 0 while no answer is there *)
Record rc := mkRc { r_msg : bool; r_expires : Z; r_received : Z }.
Definition no_rc : rc := mkRc false 0 0.

(** Sizes of elements (np_tree.c:317-324, np_treeval.c): they do not matter here *)
Definition rc_key_size (k : tkey) : Z := 16.
Definition rc_val_size (r : rc) : Z := 8.

(** np_comp_msgproperty.h np_redelivery_data_t with the settings of the channel: [c_iv] is msg_ttl / (retry + 1) *)
Record copy := mkCopy { c_uuid : uuid; c_sendat : Z; c_at : Z; c_ttl : Z; c_iv : Z }.

Inductive result := Answered | TimedOut.

(** [sent]: message id and time stamp of the packets that left; [results]: what the channel or the node was told *)
Record sender := mkSender {
  now : Z;
  handlers : @np_tree rc;
  copies : list copy;
  sent : list (uuid * Z);
  results : list (uuid * result) }.

Definition init (t : Z) : sender := mkSender t np_tree_create [] [] [].

Definition set_handlers (h : np_tree) (s : sender) : sender := mkSender (now s) h (copies s) (sent s) (results s).

(** np_message.c:817-847 _np_message_add_response_handler, then np_comp_msgproperty.c:2243-2249 (internal property) *)
Definition add_response_handler (u : uuid) (msg : bool) (tstamp ttl : Z) (s : sender) : outcome sender :=
  obind (np_tree_insert no_rc rc_key_size rc_val_size (UUuid u) (mkRc msg (tstamp + ttl) 0) (handlers s)) (fun h =>
  Ok (set_handlers h s)).

Definition uuid_eqb (a b : uuid) : bool := if list_eq_dec Z.eq_dec a b then true else false.

(** np_comp_msgproperty.c:2197-2226 __np_property_redelivery_set *)
Definition redelivery_set (u : uuid) (sendat ttl iv : Z) (s : sender) : sender :=
  if existsb (fun c => uuid_eqb (c_uuid c) u) (copies s) then s
  else mkSender (now s) (handlers s) (copies s ++ [mkCopy u sendat (sendat + iv) ttl iv]) (sent s) (results s).

(** np_axon.c:91-117 _np_out_callback_wrapper with ACK_DESTINATION; then the message goes out *)
Definition out_message (u : uuid) (tstamp sendat ttl iv : Z) (s : sender) : outcome sender :=
  obind (add_response_handler u true tstamp ttl s) (fun s =>
  let s := redelivery_set u sendat ttl iv s in
  Ok (mkSender (now s) (handlers s) (copies s) (sent s ++ [(u, tstamp)]) (results s))).

(** The field _NP_MSG_INST_RESPONSE_UUID of the body of an acknowledgement: missing, a value whose pointer is NULL (the double 0),
    bytes *)
Inductive field := Missing | Null | Bin (b : list Z).

(** np_dendrit.c:573-620 _np_in_ack.  np_tree_find_str (np_tree.c:127-140) asserts that the pointer is not NULL *)
Definition in_ack (f : field) (s : sender) : outcome sender :=
  match f with
  | Missing => Ok s
  | Null => Abort
  | Bin b =>
      let t := handlers s in
      let mark (e : elem) := (fst e, mkRc (r_msg (snd e)) (r_expires (snd e)) (now s)) in
      let r := fst (find_update elem_cmp (search no_rc (UStr b)) mark (root t)) in
      Ok (set_handlers (mkTree r (count t) (bytes t) (immutable t)) s)
  end.

(** np_comp_msgproperty.c:569-639 the loop of _np_msgproperty_cleanup_response_handler; [max] is max_events *)
Fixpoint visit (max : nat) (t : Z) (l : list (@elem rc)) : list (@elem rc * result) :=
  match l with
  | [] => []
  | e :: l' =>
      let rest := match max with O => [] | S n => visit n t l' end in
      if r_expires (snd e) <? t then (e, TimedOut) :: rest
      else if r_received (snd e) =? 0 then rest
      else (e, Answered) :: rest
  end.

Definition key_uuid (k : tkey) : uuid := match k with KOther (UUuid b) => b | _ => [] end.

(** 641-655: the visited handlers that are done leave the tree *)
Fixpoint remove_all (l : list (@elem rc * result)) (h : np_tree) : outcome np_tree :=
  match l with
  | [] => Ok h
  | (e, _) :: l' =>
      obind (np_tree_del no_rc rc_key_size rc_val_size (UUuid (key_uuid (fst e))) h) (remove_all l')
  end.

(** 2250-2264 __np_response_handler_set (channel): the copy is dropped *)
Definition drop_copy (u : uuid) (l : list copy) : list copy := filter (fun c => negb (uuid_eqb (c_uuid c) u)) l.

Fixpoint settle (l : list (@elem rc * result)) (s : sender) : sender :=
  match l with
  | [] => s
  | (e, r) :: l' =>
      let u := key_uuid (fst e) in
      settle l' (mkSender (now s) (handlers s) (if r_msg (snd e) then drop_copy u (copies s) else copies s)
                          (sent s) (results s ++ [(u, r)]))
  end.

(** 555-658 _np_msgproperty_cleanup_response_handler, called by __np_property_check (1938-1950) *)
Definition finished (s : sender) : list (@elem rc * result) := visit 30 (now s) (elements (root (handlers s))).
Definition cleanup (s : sender) : outcome sender :=
  obind (remove_all (finished s) (handlers s)) (fun h => Ok (settle (finished s) (set_handlers h s))).

(** np_comp_msgproperty.c:937-993 __np_msgproperty_redeliver_messages: the copies that are due are sent once more, with the time
    they were due as time stamp, and are due again one interval later *)
Definition due (t : Z) (c : copy) : bool := c_at c <? t.
Definition later (c : copy) : copy := mkCopy (c_uuid c) (c_sendat c) (c_at c + c_iv c) (c_ttl c) (c_iv c).

Fixpoint resend (l : list copy) (s : sender) : outcome sender :=
  match l with
  | [] => Ok s
  | c :: l' => obind (out_message (c_uuid c) (c_at c) (c_sendat c) (c_ttl c) (c_iv c) s) (resend l')
  end.

Definition redeliver_messages (s : sender) : outcome sender :=
  resend (filter (due (now s)) (copies s))
    (mkSender (now s) (handlers s) (map (fun c => if due (now s) c then later c else c) (copies s)) (sent s) (results s)).

(** What happens on the node: a message created at [t] goes out, a ping goes out (np_axon.c:677-695), an acknowledgement arrives,
    the check of the property of the acknowledgements, the check of the channels, time passes *)
Inductive op :=
| Send (u : uuid) (t ttl iv : Z)
| Ping (u : uuid) (t ttl : Z)
| Ack (f : field)
| AckCheck
| ChannelCheck
| Tick (d : Z).

Definition step (o : op) (s : sender) : outcome sender :=
  match o with
  | Send u t ttl iv => out_message u t t ttl iv s
  | Ping u t ttl => add_response_handler u false t ttl s
  | Ack f => in_ack f s
  | AckCheck => cleanup s
  | ChannelCheck => redeliver_messages s
  | Tick d => Ok (mkSender (now s + d) (handlers s) (copies s) (sent s) (results s))
  end.

Fixpoint run (h : list op) (s : sender) : outcome sender :=
  match h with [] => Ok s | o :: h' => obind (step o s) (run h') end.
