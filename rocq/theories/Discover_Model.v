(** An announcement of a sender or receiver comes in from a neighbour: src/core/np_comp_alias.c:996-1104 __np_handle_np_discovery, for messages
    that pass 737-804 (__is_forward_message, __is_discovery_message).  The announcement for others leaves through _np_out_available_messages
    (Out_Model), the one for this node goes to the channel of the subject (952-994 __np_handle).
    Simplified: an announcement of one part; both jobs run at once, in this order. *)
From Verif Require Import Base Dhkey_Model Pheromone_Model Data_Model Out_Model.

(** [avail_recv], [avail_send]: hashes of the texts "_NP.MESSAGE.RECEIVER.TOKEN" and "_NP.MESSAGE.SENDER.TOKEN";
    [chan inbound s]: the node has a key for receiving (sending) on subject [s] (_np_msgproperty_tweaked_dhkey, np_keycache.c:62-100);
    [prev]: the neighbour (parent of the alias); [seen]: the filter of parts knows the part already (40-72); [now]: np_time_now;
    [bucket]: the random number of _np_pheromone_exhale.
    The copies for neighbours, whether the token goes to the own channel, the table afterwards. *)
Definition discover (avail_recv avail_send : key) (chan : bool -> key -> bool) (w : world) (prev : key) (m : message) (seen : bool) (now bucket : Z)
  : Data_Model.run (list copy * bool * table) :=
  let find_receiver := np_dhkey_equal avail_send (m_subject m) in
  let find_sender := np_dhkey_equal avail_recv (m_subject m) in
  rbind (lift (inhale_target (w_table w) (m_audience m) prev find_sender find_receiver now)) (fun '(tb, go) =>
  rbind (if go
         then rbind (out_available (mkW (w_me w) (w_cache w) (w_connected w) tb (w_room w)) prev
                       (if find_receiver then Receivers else if find_sender then Senders else Neither)
                       (mkM (m_subject m) (m_audience m) true (m_hops m) (m_rest m)) bucket)
                    (fun '(_, cs, tb) => Done (cs, tb))
         else Done ([], tb)) (fun '(cs, tb) =>
  let mine := if find_sender then chan false (m_audience m) else if find_receiver then chan true (m_audience m) else false in
  Done (cs, mine && negb seen, tb))).
