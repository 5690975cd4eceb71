(** Which handlers process the messages of a channel: src/core/np_comp_msgproperty.c:1056-1133 (__load_internal_callback), 1166-1247
    (_np_msgproperty_create_runtime_info), 1995-2053 (handle_in_msg), 2147-2195 (handle_out_msg), on top of the settings of the channel
    (Mx_Model).  The list of handlers is made once, when a key takes the settings of its subject for the first time (1614-1631
    __np_set_property); __np_property_update (1646-1659) copies later settings and leaves the list as it is.
    Not modelled: forgetting of uuids after their time (491-519: C58), the limit of parallel messages (C57), callbacks for sending
    (np_legacy.c:337-357: not in the public header). *)
From Coq Require Import String Ascii.
From Verif Require Import Base Mx_Model.
Open Scope list_scope.
Open Scope Z_scope.

Notation chars := (list Z) (only parsing).
Definition text (s : string) : chars := map (fun c => Z.of_nat (nat_of_ascii c)) (list_ascii_of_string s).

(** np_axon.h, np_dendrit.h *)
Inductive handler :=
| check_and_send_destination_ack | in_callback_wrapper | out_callback_wrapper
| out_default | out_forward | out_handshake | in_handshake | out_ack | in_ack | out_join | in_join | out_leave | in_leave
| out_ping | in_ping | out_piggy | in_piggy | out_update | in_update | out_available_messages | in_available_receiver
| in_available_sender | out_pheromone | in_pheromone.

(** strncmp(subject, name, strnlen(subject, 256)) == 0: equal as far as the subject goes *)
Fixpoint begins (s name : chars) : bool :=
  match s, name with
  | [], _ => true
  | a :: s, b :: name => (a =? b) && begins s name
  | _ :: _, [] => false
  end.
Definition is_named (subject : chars) (name : string) : bool := begins (firstn 256 subject) (text name).

(** np_comp_msgproperty.c:1056-1133 __load_internal_callback; the names: include/core/np_comp_msgproperty.h:55-68.
    [inbound]: mode is INBOUND, else OUTBOUND *)
Definition load_internal_callback (subject : chars) (inbound : bool) : list handler :=
  let one name (o i : list handler) := if is_named subject name then (if inbound then i else o) else [] in
  one "_NP.DEFAULT"%string [out_default] [] ++
  one "_NP.FORWARD"%string [out_forward] [] ++
  one "_NP.HANDSHAKE"%string [out_handshake] [in_handshake] ++
  one "_NP.ACK"%string [out_ack] [in_ack] ++
  one "_NP.JOIN.REQUEST"%string [out_join] [in_join] ++
  one "_NP.LEAVE.REQUEST"%string [out_leave] [in_leave] ++
  one "_NP.PING.REQUEST"%string [out_ping] [in_ping] ++
  one "_NP.NODES.PIGGY"%string [out_piggy] [in_piggy] ++
  one "_NP.NODES.UPDATE"%string [out_update] [in_update] ++
  one "_NP.MESSAGE.RECEIVER.TOKEN"%string [out_available_messages] [in_available_receiver] ++
  one "_NP.MESSAGE.SENDER.TOKEN"%string [out_available_messages] [in_available_sender] ++
  one "_NP.PHEROMONE.UPDATE"%string [out_pheromone] [in_pheromone].

(** np_comp_msgproperty.c:1166-1247 _np_msgproperty_create_runtime_info for the key of one side.  The list is new, so nothing is in it
    already (sll_contains).  ACK_DESTINATION is 2, NP_MX_AUD_VIRTUAL is 1. *)
Definition create_runtime_info (internal inbound : bool) (ack aud : Z) (subject : chars) : list handler :=
  if inbound then
    (if flag_cmp ack 2 then [check_and_send_destination_ack] else []) ++
    (if negb internal && negb (aud =? 1) then [in_callback_wrapper] else load_internal_callback subject true)
  else
    if negb internal && negb (aud =? 1) then [out_callback_wrapper; out_default] else load_internal_callback subject false.

(** The subjects of the node itself: src/np_msgproperty_init.c.part:29-290: name (strndup: the count is at least the length), ack_mode,
    modes (INBOUND 1, OUTBOUND 2) *)
Definition node_subjects : list (string * Z * Z * Z) :=
  [("_NP.DEFAULT", 13, 1, 3); ("_NP.FORWARD", 13, 1, 2); ("_NP.HANDSHAKE", 15, 1, 3); ("_NP.ACK", 9, 1, 3); ("_NP.JOIN.REQUEST", 18, 1, 3);
   ("_NP.LEAVE.REQUEST", 19, 1, 3); ("_NP.PING.REQUEST", 17, 2, 3); ("_NP.NODES.PIGGY", 17, 1, 3); ("_NP.NODES.UPDATE", 18, 1, 3);
   ("_NP.MESSAGE.RECEIVER.TOKEN", 28, 1, 3); ("_NP.MESSAGE.SENDER.TOKEN", 26, 1, 3); ("_NP.PHEROMONE.UPDATE", 22, 1, 3)]%string.
Definition node_chain (e : string * Z * Z * Z) (inbound : bool) : list handler :=
  let '(name, n, ack, mode) := e in
  if flag_cmp mode (if inbound then 1 else 2) then create_runtime_info true inbound ack 0 (firstn (Z.to_nat n) (text name)) else [].

(** ** A channel of an application *)
(** [seen]: unique_uuids of the receiving side *)
Record channel := mkCh { mx : st; rx_chain : option (list handler); tx_chain : option (list handler); seen : list Z }.
Definition start : channel := mkCh init None None [].

(** the key had no settings and has some now *)
Definition made (subject : chars) (inbound : bool) (old new : option (nat * bool)) (s : st) (chain : option (list handler)) : option (list handler) :=
  match old, new with
  | None, Some (o, _) => Some (create_runtime_info false inbound (c_ack (obj s o)) (c_aud_type (obj s o)) subject)
  | _, _ => chain
  end.
(** a call of the application (Mx_Model) *)
Definition do_call (subject : chars) (c : call) (n : channel) : outcome channel :=
  obind (step c (mx n)) (fun s =>
  Ok (mkCh s (made subject true (rx (mx n)) (rx s) s (rx_chain n)) (made subject false (tx (mx n)) (tx s) s (tx_chain n)) (seen n))).

(** ** Messages *)
(** what the handlers find: does the message ask for an acknowledgement (flag msg_ack_dest), is there a way back for it (np_dendrit.c:74-112),
    can it be opened (np_dendrit.c:287-334) *)
Record incoming := mkIn { i_uuid : Z; i_wants_ack : bool; i_way_back : bool; i_opens : bool }.
Inductive effect :=
| Acked (uuid : Z)               (* an acknowledgement is sent *)
| Opened (uuid : Z)              (* decrypted with the key of a session *)
| Given (uuid : Z) (cb : nat)    (* a receive callback of the application gets it *)
| Sealed (uuid : Z)              (* encrypted for a receiver *)
| Sent (uuid : Z)                (* handed to the network *)
| Ran (h : handler).             (* a handler of the node itself *)

(** the answer and the effects of one handler *)
Definition receive_one (m : incoming) (h : handler) : bool * list effect :=
  match h with
  | check_and_send_destination_ack => (true, if i_wants_ack m && i_way_back m then [Acked (i_uuid m)] else [])
  | in_callback_wrapper => (i_opens m, if i_opens m then [Opened (i_uuid m)] else [])
  | h => (true, [Ran h])
  end.
(** 2015-2022: the first refusal ends it *)
Fixpoint chain_of {M} (one : M -> handler -> bool * list effect) (m : M) (hs : list handler) : bool * list effect :=
  match hs with
  | [] => (true, [])
  | h :: hs => let '(ok, e) := one m h in if ok then let '(ok', e') := chain_of one m hs in (ok', e ++ e') else (false, e)
  end.
(** 1995-2053 __np_property_handle_in_msg for a key in use.  The callbacks of the application are run through a converter that never
    refuses (neuropil.c:737-794, C85). *)
Definition arrive (m : incoming) (n : channel) : list effect * channel :=
  match rx (mx n), rx_chain n with
  | Some (o, false), Some hs =>
    let c := obj (mx n) o in
    let known := c_unique c && existsb (Z.eqb (i_uuid m)) (seen n) in
    let n' := mkCh (mx n) (rx_chain n) (tx_chain n) (if c_unique c && negb known then seen n ++ [i_uuid m] else seen n) in
    if known then ([], n')
    else let '(ok, e) := chain_of receive_one m hs in
         (e ++ (if ok && negb (c_aud_type c =? 1) then map (Given (i_uuid m)) (seq 0 (listeners (mx n))) else []), n')
  | _, _ => ([], n)
  end.

(** a message of the application on its way out; is there a receiver to encrypt for (np_axon.c:61-175) *)
Record outgoing := mkOut { o_uuid : Z; o_receiver : bool }.
Definition send_one (m : outgoing) (h : handler) : bool * list effect :=
  match h with
  | out_callback_wrapper => (o_receiver m, if o_receiver m then [Sealed (o_uuid m)] else [])
  | out_default => (true, [Sent (o_uuid m)])
  | h => (true, [Ran h])
  end.
(** 2147-2195 __np_property_handle_out_msg for a key in use *)
Definition leave (m : outgoing) (n : channel) : list effect :=
  match tx (mx n), tx_chain n with
  | Some (_, false), Some hs => snd (chain_of send_one m hs)
  | _, _ => []
  end.

(** what happens to a channel: calls of the application (np_send is the call Send: settings, then the message), messages from the network *)
Inductive event := Call (c : call) | SendMsg (m : outgoing) | Arrive (m : incoming).
Definition happen (subject : chars) (e : event) (n : channel) : outcome (list effect * channel) :=
  match e with
  | Call c => obind (do_call subject c n) (fun n' => Ok ([], n'))
  | SendMsg m =>
      let '(ok, _, _) := np_send (mx n) in
      obind (do_call subject Send n) (fun n' => Ok (if ok then leave m n' else [], n'))
  | Arrive m => Ok (arrive m n)
  end.
Fixpoint history (subject : chars) (es : list event) (n : channel) : outcome (list effect * channel) :=
  match es with
  | [] => Ok ([], n)
  | e :: es => obind (happen subject e n) (fun '(a, n1) => obind (history subject es n1) (fun '(b, n2) => Ok (a ++ b, n2)))
  end.
