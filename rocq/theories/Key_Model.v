(** Model of the life of a key (node, alias, identity, subject): the state table of src/np_key.c, the
    conditions of src/core/np_comp_*.c that decide which action an event triggers, and the delivery of events to
    keys (src/np_keycache.c, src/np_eventqueue.c) under every schedule.

    What is kept: the current state and the type flags of each key, every event that is on its way, every condition
    that is evaluated, every action that is run and every answer of the user's authenticate callback.  What is left
    out: the remaining effects of the actions.  Whatever a condition reads beyond the event, the type flags and the
    identity of the key (clocks, routing tables, token validity, filters, ...) is an arbitrary [view], chosen anew
    at each evaluation.  Events that actions create are mailed by the environment at any time, with the exception of
    the authentication events, which are created in one place only (np_comp_identity.c:526). *)
From Verif Require Import Base Statemachine_Model.

(** ** Events *)

(** include/np_util.h:53: FLAG_CMP(data, flag) *)
Definition flag (data f : Z) : bool := Z.land data f =? f.

(** include/util/np_event.h:18-44 [enum event_type] *)
Definition evt_noop : Z := 0.
Definition evt_internal : Z := 1.
Definition evt_external : Z := 2.
Definition evt_timeout : Z := 4.
Definition evt_userspace : Z := 8.
Definition evt_message : Z := 16.
Definition evt_token : Z := 32.
Definition evt_property : Z := 64.
Definition evt_response : Z := 128.
Definition evt_authn : Z := 256.
Definition evt_authz : Z := 512.
Definition evt_accnt : Z := 1024.
Definition evt_redeliver : Z := 2048.
Definition evt_shutdown : Z := 4096.
Definition evt_disable : Z := 8192.
Definition evt_enable : Z := 16384.

(** The identity of a key, np_dhkey_t; the model only compares them. *)
Notation dhkey := Z (only parsing).

(** Subjects of message parts.  The code compares the hashes of the reserved names (np_generate_subject); the
    model assumes that distinct names have distinct hashes. *)
Inductive subject :=
| S_handshake | S_join | S_leave | S_ack | S_ping | S_piggy | S_update
| S_avail_recv | S_avail_send | S_pheromone | S_user (name : Z).
Definition subject_eqb (a b : subject) : bool :=
  match a, b with
  | S_handshake, S_handshake | S_join, S_join | S_leave, S_leave | S_ack, S_ack | S_ping, S_ping
  | S_piggy, S_piggy | S_update, S_update | S_avail_recv, S_avail_recv | S_avail_send, S_avail_send
  | S_pheromone, S_pheromone => true
  | S_user x, S_user y => x =? y
  | _, _ => false
  end.

(** include/np_aaatoken.h:104-215: the fields of a token that conditions read; [tk_issuer] is the parsed issuer. *)
Record token := mkToken {
  tk_type : Z; tk_private_key : bool; tk_scope : Z;
  tk_fingerprint : dhkey; tk_partner : dhkey; tk_issuer : dhkey }.

(** include/np_aaatoken.h:81-98 *)
Definition aaatoken_identity : Z := 1.
Definition aaatoken_node : Z := 2.
Definition aaatoken_handshake : Z := 4.
Definition aaatoken_message_intent : Z := 16.
Definition scope_private : Z := 1.
Definition scope_private_available : Z := 2.

(** The object an event carries, as far as the type checks (_np_memory_rtti_check, np_memory_get_type) and the
    conditions look at it. *)
Inductive payload :=
| PNone
| PNode (address_valid star : bool)
| PToken (t : token)
| PBlob
| PPart (s : subject) (audience : dhkey)
| PMessage
| PConf
| PRun
| PResponse
| POther.

(** include/util/np_event.h:47-58 [np_util_event_t]; current_run and the cleanup function are left out. *)
Record event := mkEvent { e_type : Z; e_data : payload; e_target : dhkey; e_source : dhkey }.

(** ** Keys *)

(** include/np_key.h:42-54 [enum np_key_type] *)
Definition type_unknown : Z := 1.
Definition type_alias : Z := 2.
Definition type_node : Z := 4.
Definition type_wildcard : Z := 8.
Definition type_ident : Z := 16.
Definition type_interface : Z := 32.
Definition type_subject : Z := 64.

(** src/np_key.c:59-73: the numbers of the states *)
Definition UNUSED : Z := 0.
Definition IN_SETUP_NODE : Z := 1.
Definition IN_SETUP_ALIAS : Z := 2.
Definition IN_SETUP_WILDCARD : Z := 3.
Definition IN_SETUP_IDENTITY : Z := 4.
Definition IN_USE_IDENTITY : Z := 5.
Definition IN_USE_NODE : Z := 6.
Definition IN_USE_ALIAS : Z := 7.
Definition IN_USE_MSGPROPERTY : Z := 8.
Definition ON_HOLD_MSGPROPERTY : Z := 9.
Definition IN_DESTROY : Z := 10.
Definition MAX_KEY_STATES : nat := 11.

(** Names of the functions that the table refers to; [A_x] is [__np_x] or [__x], [C_x] is [__x]. *)
Inductive action :=
| A_keystate_noop
| A_wildcard_set
| A_node_set_node
| A_alias_set
| A_alias_set_node
| A_node_set
| A_set_identity
| A_set_property
| A_alias_set_node_destroy
| A_create_session
| A_alias_decrypt
| A_handle_np_message
| A_node_update_token
| A_node_upgrade
| A_alias_destroy
| A_create_client_network
| A_node_send_direct
| A_node_send_encrypted
| A_node_discard_message
| A_node_split_message
| A_node_identity_upgrade
| A_node_destroy
| A_node_handle_completion
| A_identity_update
| A_identity_destroy
| A_wildcard_destroy
| A_handle_usr_msg
| A_handle_pheromone
| A_handle_np_discovery
| A_handle_np_forward
| A_alias_shutdown
| A_alias_update
| A_node_add_to_leafset
| A_node_handle_response
| A_node_send_shutdown
| A_node_send_shutdown_event
| A_node_update
| A_create_identity_network
| A_extract_handshake
| A_identity_handle_authn
| A_identity_handle_authz
| A_identity_handle_account
| A_identity_shutdown
| A_property_lifecycle_set
| A_response_handler_set
| A_property_redelivery_set
| A_property_handle_in_msg
| A_property_handle_out_msg
| A_property_handle_intent
| A_property_add_msg_to_cache
| A_property_update
| A_property_check
| A_key_destroy.

Inductive condition :=
| C_is_wildcard_key
| C_is_node_info
| C_is_alias_handshake_token
| C_is_alias_node_info
| C_is_node_handshake_token
| C_is_node_token
| C_is_identity_aaatoken
| C_is_msgproperty
| C_is_unused
| C_is_crypted_message
| C_is_join_in_message
| C_is_node_authn
| C_is_alias_invalid
| C_is_handshake_message
| C_is_join_out_message
| C_is_invalid_message
| C_is_np_message
| C_is_node_identity_authn
| C_is_shutdown_event
| C_is_node_invalid
| C_is_identity_authn
| C_is_identity_invalid
| C_is_wildcard_invalid
| C_is_usr_in_message
| C_is_dht_message
| C_is_pheromone_message
| C_is_discovery_message
| C_is_forward_message
| C_is_np_messagepart
| C_is_response_event
| C_has_to_leave
| C_is_unencrypted_np_message
| C_is_authn_request
| C_is_authz_request
| C_is_account_request
| C_is_noop_event
| C_is_msgproperty_lifecycle_disable
| C_is_message_redelivery_event
| C_is_sender_token_available
| C_is_receiver_token_available
| C_is_intent_authz
| C_is_no_token_available
| C_is_msgproperty_lifecycle_enable.

(** src/np_key.c:166-486, in the order of the source *)
Definition key_decls : list (decl action condition) :=
  [ DState UNUSED (Some A_keystate_noop) (Some A_keystate_noop)  (* 171-173 *);
    DRule UNUSED IN_SETUP_WILDCARD (Some A_wildcard_set) (Some C_is_wildcard_key)  (* 177-179 *);
    DRule UNUSED IN_SETUP_NODE (Some A_node_set_node) (Some C_is_node_info)  (* 181-183 *);
    DRule UNUSED IN_SETUP_ALIAS (Some A_alias_set) (Some C_is_alias_handshake_token)  (* 185-187 *);
    DRule UNUSED UNUSED (Some A_alias_set_node) (Some C_is_alias_node_info)  (* 189-191 *);
    DRule UNUSED IN_SETUP_NODE (Some A_node_set) (Some C_is_node_handshake_token)  (* 193-195 *);
    DRule UNUSED IN_SETUP_NODE (Some A_node_set) (Some C_is_node_token)  (* 197-199 *);
    DRule UNUSED IN_USE_IDENTITY (Some A_set_identity) (Some C_is_identity_aaatoken)  (* 201-203 *);
    DRule UNUSED IN_USE_MSGPROPERTY (Some A_set_property) (Some C_is_msgproperty)  (* 205-207 *);
    DRule UNUSED IN_DESTROY (Some A_alias_set_node_destroy) (Some C_is_unused)  (* 209-211 *);
    DState IN_SETUP_ALIAS (Some A_create_session) (Some A_keystate_noop)  (* 214-216 *);
    DRule IN_SETUP_ALIAS IN_SETUP_ALIAS (Some A_alias_decrypt) (Some C_is_crypted_message)  (* 218-220 *);
    DRule IN_SETUP_ALIAS IN_SETUP_ALIAS (Some A_handle_np_message) (Some C_is_join_in_message)  (* 222-224 *);
    DRule IN_SETUP_ALIAS IN_SETUP_ALIAS (Some A_node_update_token) (Some C_is_node_token)  (* 226-228 *);
    DRule IN_SETUP_ALIAS IN_USE_ALIAS (Some A_node_upgrade) (Some C_is_node_authn)  (* 230-232 *);
    DRule IN_SETUP_ALIAS IN_DESTROY (Some A_alias_destroy) (Some C_is_alias_invalid)  (* 234-236 *);
    DState IN_SETUP_NODE (Some A_create_client_network) (Some A_keystate_noop)  (* 239-241 *);
    DRule IN_SETUP_NODE IN_SETUP_NODE (Some A_node_send_direct) (Some C_is_handshake_message)  (* 243-245 *);
    DRule IN_SETUP_NODE IN_SETUP_NODE (Some A_node_send_encrypted) (Some C_is_join_out_message)  (* 247-249 *);
    DRule IN_SETUP_NODE IN_SETUP_NODE (Some A_node_discard_message) (Some C_is_invalid_message)  (* 251-253 *);
    DRule IN_SETUP_NODE IN_SETUP_NODE (Some A_node_split_message) (Some C_is_np_message)  (* 255-257 *);
    DRule IN_SETUP_NODE IN_SETUP_NODE (Some A_node_update_token) (Some C_is_node_handshake_token)  (* 259-261 *);
    DRule IN_SETUP_NODE IN_SETUP_NODE (Some A_node_update_token) (Some C_is_node_token)  (* 263-265 *);
    DRule IN_SETUP_NODE IN_USE_NODE (Some A_node_identity_upgrade) (Some C_is_node_identity_authn)  (* 267-269 *);
    DRule IN_SETUP_NODE IN_USE_NODE (Some A_node_upgrade) (Some C_is_node_authn)  (* 271-273 *);
    DRule IN_SETUP_NODE IN_DESTROY (Some A_node_destroy) (Some C_is_shutdown_event)  (* 275-277 *);
    DRule IN_SETUP_NODE IN_DESTROY (Some A_node_destroy) (Some C_is_node_invalid)  (* 279-281 *);
    DRule IN_SETUP_NODE IN_SETUP_NODE (Some A_node_handle_completion) None  (* 283-285 *);
    DState IN_SETUP_IDENTITY (Some A_keystate_noop) (Some A_keystate_noop)  (* 288-290 *);
    DRule IN_SETUP_IDENTITY IN_USE_IDENTITY (Some A_identity_update) (Some C_is_identity_authn)  (* 292-294 *);
    DRule IN_SETUP_IDENTITY IN_DESTROY (Some A_identity_destroy) (Some C_is_identity_invalid)  (* 296-298 *);
    DState IN_SETUP_WILDCARD (Some A_create_client_network) (Some A_keystate_noop)  (* 301-303 *);
    DRule IN_SETUP_WILDCARD IN_SETUP_WILDCARD (Some A_node_send_direct) (Some C_is_handshake_message)  (* 305-307 *);
    DRule IN_SETUP_WILDCARD IN_DESTROY (Some A_wildcard_destroy) (Some C_is_node_handshake_token)  (* 309-311 *);
    DRule IN_SETUP_WILDCARD IN_DESTROY (Some A_wildcard_destroy) (Some C_is_wildcard_invalid)  (* 313-315 *);
    DRule IN_SETUP_WILDCARD IN_SETUP_WILDCARD (Some A_node_handle_completion) None  (* 317-319 *);
    DState IN_USE_ALIAS (Some A_keystate_noop) (Some A_keystate_noop)  (* 322-324 *);
    DRule IN_USE_ALIAS IN_USE_ALIAS (Some A_alias_decrypt) (Some C_is_crypted_message)  (* 326-328 *);
    DRule IN_USE_ALIAS IN_USE_ALIAS (Some A_handle_usr_msg) (Some C_is_usr_in_message)  (* 330-332 *);
    DRule IN_USE_ALIAS IN_USE_ALIAS (Some A_handle_np_message) (Some C_is_dht_message)  (* 334-336 *);
    DRule IN_USE_ALIAS IN_USE_ALIAS (Some A_handle_pheromone) (Some C_is_pheromone_message)  (* 338-340 *);
    DRule IN_USE_ALIAS IN_USE_ALIAS (Some A_handle_np_discovery) (Some C_is_discovery_message)  (* 342-344 *);
    DRule IN_USE_ALIAS IN_USE_ALIAS (Some A_handle_np_forward) (Some C_is_forward_message)  (* 346-348 *);
    DRule IN_USE_ALIAS IN_DESTROY (Some A_alias_destroy) (Some C_is_alias_invalid)  (* 350-352 *);
    DRule IN_USE_ALIAS IN_USE_ALIAS (Some A_alias_shutdown) (Some C_is_shutdown_event)  (* 354-356 *);
    DRule IN_USE_ALIAS IN_USE_ALIAS None (Some C_is_node_authn)  (* 358-360 *);
    DRule IN_USE_ALIAS IN_USE_ALIAS (Some A_alias_update) None  (* 362-364 *);
    DState IN_USE_NODE (Some A_node_add_to_leafset) (Some A_node_destroy)  (* 368-370 *);
    DRule IN_USE_NODE IN_USE_NODE (Some A_node_send_encrypted) (Some C_is_np_messagepart)  (* 372-374 *);
    DRule IN_USE_NODE IN_USE_NODE (Some A_node_split_message) (Some C_is_np_message)  (* 376-378 *);
    DRule IN_USE_NODE IN_USE_NODE (Some A_node_handle_response) (Some C_is_response_event)  (* 380-382 *);
    DRule IN_USE_NODE IN_USE_NODE (Some A_node_send_shutdown) (Some C_is_shutdown_event)  (* 384-386 *);
    DRule IN_USE_NODE IN_USE_NODE (Some A_node_send_shutdown_event) (Some C_has_to_leave)  (* 388-390 *);
    DRule IN_USE_NODE IN_DESTROY (Some A_node_send_shutdown) (Some C_is_node_invalid)  (* 391-393 *);
    DRule IN_USE_NODE IN_USE_NODE (Some A_node_update) None  (* 395-397 *);
    DState IN_USE_IDENTITY (Some A_create_identity_network) (Some A_identity_destroy)  (* 401-403 *);
    DRule IN_USE_IDENTITY IN_USE_IDENTITY (Some A_extract_handshake) (Some C_is_unencrypted_np_message)  (* 405-407 *);
    DRule IN_USE_IDENTITY IN_USE_IDENTITY (Some A_identity_handle_authn) (Some C_is_authn_request)  (* 409-411 *);
    DRule IN_USE_IDENTITY IN_USE_IDENTITY (Some A_identity_handle_authz) (Some C_is_authz_request)  (* 413-415 *);
    DRule IN_USE_IDENTITY IN_USE_IDENTITY (Some A_identity_handle_account) (Some C_is_account_request)  (* 417-419 *);
    DRule IN_USE_IDENTITY IN_DESTROY (Some A_identity_shutdown) (Some C_is_shutdown_event)  (* 421-423 *);
    DRule IN_USE_IDENTITY IN_DESTROY (Some A_identity_shutdown) (Some C_is_identity_invalid)  (* 425-427 *);
    DRule IN_USE_IDENTITY IN_USE_IDENTITY (Some A_keystate_noop) (Some C_is_noop_event)  (* 429-431 *);
    DState IN_USE_MSGPROPERTY (Some A_keystate_noop) (Some A_keystate_noop)  (* 434-436 *);
    DRule IN_USE_MSGPROPERTY ON_HOLD_MSGPROPERTY (Some A_property_lifecycle_set) (Some C_is_msgproperty_lifecycle_disable)  (* 438-440 *);
    DRule IN_USE_MSGPROPERTY IN_USE_MSGPROPERTY (Some A_response_handler_set) (Some C_is_response_event)  (* 442-444 *);
    DRule IN_USE_MSGPROPERTY IN_USE_MSGPROPERTY (Some A_property_redelivery_set) (Some C_is_message_redelivery_event)  (* 446-448 *);
    DRule IN_USE_MSGPROPERTY IN_USE_MSGPROPERTY (Some A_property_handle_in_msg) (Some C_is_sender_token_available)  (* 450-452 *);
    DRule IN_USE_MSGPROPERTY IN_USE_MSGPROPERTY (Some A_property_handle_out_msg) (Some C_is_receiver_token_available)  (* 454-456 *);
    DRule IN_USE_MSGPROPERTY IN_USE_MSGPROPERTY (Some A_property_handle_intent) (Some C_is_intent_authz)  (* 458-460 *);
    DRule IN_USE_MSGPROPERTY IN_USE_MSGPROPERTY (Some A_property_add_msg_to_cache) (Some C_is_no_token_available)  (* 462-464 *);
    DRule IN_USE_MSGPROPERTY IN_USE_MSGPROPERTY (Some A_property_update) (Some C_is_msgproperty)  (* 466-468 *);
    DRule IN_USE_MSGPROPERTY IN_USE_MSGPROPERTY (Some A_property_check) (Some C_is_noop_event)  (* 470-472 *);
    DState ON_HOLD_MSGPROPERTY (Some A_keystate_noop) (Some A_keystate_noop)  (* 475-477 *);
    DRule ON_HOLD_MSGPROPERTY IN_USE_MSGPROPERTY (Some A_property_lifecycle_set) (Some C_is_msgproperty_lifecycle_enable)  (* 479-481 *);
    DState IN_DESTROY (Some A_key_destroy) (Some A_keystate_noop)  (* 484-486 *) ].


(** The table after all declarations; [C44_table] shows that none of them fails. *)
Definition key_table : table action condition :=
  match declare_all (repeat None MAX_KEY_STATES) key_decls with Ok t => t | _ => [] end.

(** ** Conditions *)

(** Everything else a condition or an action reads at the moment it runs. *)
Record view := mkView {
  v_me : dhkey;              (** the dhkey of our node (context->my_node_key) *)
  v_valid : bool;            (** _np_aaatoken_is_valid of the token in the event *)
  v_routed : bool;           (** node != NULL and (is_in_leafset or is_in_routing_table) *)
  v_subscribed : bool;       (** an inbound, not internal, not virtual subject of that name exists *)
  v_duplicate : bool;        (** the duplicate filter knows the token / the message part *)
  v_internal : bool;         (** the subject of the key is internal *)
  v_below_threshold : bool;  (** the message threshold of the subject is not breached *)
  v_session : bool;          (** _np_intent_has_crypto_session for the peer of the message *)
  v_same_owner : bool;       (** no local token, or its public key equals the one in the event's token *)
  v_aged : bool;             (** the time part of __is_unused / __is_wildcard_invalid *)
  v_bad : bool;              (** the remaining reasons of __is_alias_invalid, __is_node_invalid, __has_to_leave,
                                 __is_identity_invalid *)
  v_answer : bool;           (** what the authenticate callback returns *)
  v_authenticated : bool;    (** the token is marked as authenticated already *)
  v_realm_client : bool;     (** context->enable_realm_client *)
  v_network_failed : bool;   (** the network of the node could not be created *)
  v_first_identity : bool    (** context->my_identity == NULL *) }.

Definition part_of (p : payload) : option (subject * dhkey) :=
  match p with PPart s a => Some (s, a) | _ => None end.
Definition is_part (p : payload) : bool := match p with PPart _ _ => true | _ => false end.
Definition is_message (p : payload) : bool := match p with PMessage => true | _ => false end.
Definition subject_in (p : payload) (l : list subject) : bool :=
  match p with PPart s _ => existsb (subject_eqb s) l | _ => false end.
Definition audience_is (p : payload) (d : dhkey) : bool :=
  match p with PPart _ a => a =? d | _ => false end.
Definition token_has (p : payload) (f : token -> bool) : bool :=
  match p with PToken t => f t | _ => false end.
Definition part_event (dir : Z) (e : event) : bool :=
  flag (e_type e) evt_message && flag (e_type e) dir && is_part (e_data e).

(** core/np_comp_alias.c:737-773 (and the same prefix in 806-912) *)
Definition is_forward (ty : Z) (v : view) (e : event) : bool :=
  flag ty type_alias && part_event evt_external e && v_routed v && negb (audience_is (e_data e) (v_me v)).

(** core/np_comp_msgproperty.c:1982-1993, 2055-2070 *)
Definition external_message (e : event) : bool :=
  flag (e_type e) evt_message && flag (e_type e) evt_external && is_message (e_data e).
Definition internal_message (e : event) : bool :=
  flag (e_type e) evt_message && flag (e_type e) evt_internal && negb (flag (e_type e) evt_redeliver)
  && (is_message (e_data e) || is_part (e_data e)).

(** core/np_comp_node.c:352-372 *)
Definition authn_event (e : event) : bool :=
  flag (e_type e) evt_internal && flag (e_type e) evt_token && flag (e_type e) evt_authn
  && token_has (e_data e) (fun _ => true).

(** [holds c ty d v e]: condition [c] for a key with type flags [ty] and identity [d]. *)
Definition holds (c : condition) (ty : Z) (d : dhkey) (v : view) (e : event) : bool :=
  let t := e_type e in
  let p := e_data e in
  match c with
  (* core/np_comp_node.c:285-301 *)
  | C_is_wildcard_key => flag t evt_internal && match p with PNode ok star => ok && star | _ => false end
  (* core/np_comp_node.c:303-321 *)
  | C_is_node_info => flag t evt_internal && match p with PNode ok star => ok && negb star | _ => false end
  (* core/np_comp_alias.c:246-269; the comparison with the type is an equality here *)
  | C_is_alias_handshake_token => flag t evt_token && flag t evt_external &&
      token_has p (fun k => (tk_type k =? aaatoken_handshake) && negb (tk_issuer k =? e_source e) && v_valid v)
  (* core/np_comp_alias.c:425-440 *)
  | C_is_alias_node_info => flag t evt_external && match p with PNode ok _ => ok | _ => false end
  (* core/np_comp_node.c:34-64 *)
  | C_is_node_handshake_token => flag t evt_token && flag t evt_external &&
      token_has p (fun k => flag (tk_type k) aaatoken_handshake && (tk_issuer k =? e_source e) && v_valid v)
  (* core/np_comp_node.c:98-117 *)
  | C_is_node_token => flag t evt_token && flag t evt_external &&
      token_has p (fun k => flag (tk_type k) aaatoken_node && negb (tk_private_key k) && v_valid v)
  (* core/np_comp_identity.c:37-64 *)
  | C_is_identity_aaatoken => flag t evt_internal && flag t evt_token &&
      token_has p (fun k =>
        (flag (tk_type k) aaatoken_identity || flag (tk_type k) aaatoken_node || flag (tk_type k) aaatoken_handshake)
        && (tk_private_key k || flag (tk_scope k) scope_private || flag (tk_scope k) scope_private_available)
        && v_valid v)
  (* core/np_comp_msgproperty.c:1565-1577 *)
  | C_is_msgproperty => flag t evt_property && flag t evt_internal && match p with PConf => true | _ => false end
  (* core/np_comp_alias.c:397-403 *)
  | C_is_unused => v_aged v
  (* core/np_comp_alias.c:556-573 *)
  | C_is_crypted_message => flag ty type_alias && flag t evt_message && flag t evt_external
      && match p with PBlob => true | _ => false end
  (* core/np_comp_alias.c:704-735 *)
  | C_is_join_in_message => flag ty type_alias && part_event evt_external e && subject_in p [S_join; S_leave]
  (* core/np_comp_node.c:352-372 *)
  | C_is_node_authn => authn_event e
  (* core/np_comp_alias.c:1226-1342 *)
  | C_is_alias_invalid => flag ty type_unknown || v_bad v
  (* core/np_comp_node.c:1838-1867 *)
  | C_is_handshake_message => flag t evt_internal && flag t evt_message
      && (flag ty type_wildcard || flag ty type_node) && subject_in p [S_handshake]
  (* core/np_comp_node.c:1887-1915 *)
  | C_is_join_out_message => part_event evt_internal e && subject_in p [S_join; S_leave]
  (* core/np_comp_node.c:1869-1885 *)
  | C_is_invalid_message => part_event evt_internal e
  (* core/np_comp_node.c:1789-1805 *)
  | C_is_np_message => flag t evt_internal && flag t evt_message && flag ty type_node && is_message p
  (* core/np_comp_node.c:374-403 *)
  | C_is_node_identity_authn => authn_event e &&
      token_has p (fun k => flag (tk_type k) aaatoken_identity && (tk_partner k =? d))
  (* core/np_comp_node.c:66-96 *)
  | C_is_shutdown_event => flag t evt_shutdown
      && (if flag t evt_external then v_valid v && v_same_owner v else true)
      && (if flag t evt_internal then e_target e =? d else true)
  (* core/np_comp_node.c:120-227: the guard FLAG_CMP(event.type, evt_noop) is always true, evt_noop being 0 *)
  | C_is_node_invalid => flag t evt_noop && (flag ty type_unknown || v_bad v)
  (* core/np_comp_identity.c:93-96 *)
  | C_is_identity_authn => false
  (* core/np_comp_identity.c:67-91 *)
  | C_is_identity_invalid => v_bad v
  (* core/np_comp_node.c:1456-1468 *)
  | C_is_wildcard_invalid => flag ty type_wildcard && v_aged v
  (* core/np_comp_alias.c:914-950 *)
  | C_is_usr_in_message => flag ty type_alias && part_event evt_external e && v_subscribed v
  (* core/np_comp_alias.c:847-912 *)
  | C_is_dht_message => flag ty type_alias && part_event evt_external e && v_routed v
      && subject_in p [S_ack; S_ping; S_piggy; S_update; S_leave] && audience_is p (v_me v)
  (* core/np_comp_alias.c:806-845 *)
  | C_is_pheromone_message => flag ty type_alias && part_event evt_external e && v_routed v
      && subject_in p [S_pheromone]
  (* core/np_comp_alias.c:775-804 *)
  | C_is_discovery_message => is_forward ty v e && subject_in p [S_avail_recv; S_avail_send]
  (* core/np_comp_alias.c:737-773 *)
  | C_is_forward_message => is_forward ty v e
  (* core/np_comp_node.c:1807-1836, 1720-1772 *)
  | C_is_np_messagepart => part_event evt_internal e && flag ty type_node && negb (v_duplicate v)
      && negb (subject_in p [S_handshake])
  (* core/np_comp_msgproperty.c:2281-2294 *)
  | C_is_response_event => flag t evt_response && (flag t evt_timeout || flag t evt_internal)
      && match p with PResponse => true | _ => false end
  (* core/np_comp_node.c:230-283 *)
  | C_has_to_leave => flag t evt_noop && (negb (flag ty type_node) || v_bad v)
  (* core/np_comp_identity.c:305-320 *)
  | C_is_unencrypted_np_message => flag t evt_external && flag t evt_message
      && match p with PBlob => true | _ => false end
  (* core/np_comp_identity.c:396-444 *)
  | C_is_authn_request => flag t evt_authn && flag t evt_external && flag t evt_token
      && token_has p (fun k => negb (v_duplicate v)
           && (flag (tk_type k) aaatoken_identity || flag (tk_type k) aaatoken_node) && v_valid v)
  (* core/np_comp_identity.c:446-494 *)
  | C_is_authz_request => flag t evt_authz && flag t evt_external && flag t evt_token
      && token_has p (fun k => negb (v_duplicate v)
           && (flag (tk_type k) aaatoken_identity || flag (tk_type k) aaatoken_node
               || flag (tk_type k) aaatoken_message_intent) && v_valid v)
  (* core/np_comp_identity.c:643-647 *)
  | C_is_account_request => false
  (* np_key.c:115-118 *)
  | C_is_noop_event => flag t evt_noop
  (* core/np_comp_msgproperty.c:1594-1607 *)
  | C_is_msgproperty_lifecycle_disable => flag t evt_disable && flag t evt_property && flag t evt_internal
      && match p with PRun => true | _ => false end
  (* core/np_comp_msgproperty.c:2267-2279 *)
  | C_is_message_redelivery_event => flag t evt_message && flag t evt_redeliver && flag t evt_internal
      && is_message p
  (* core/np_comp_msgproperty.c:2072-2095 *)
  | C_is_sender_token_available => external_message e && (v_internal v || (v_below_threshold v && v_session v))
  (* core/np_comp_msgproperty.c:2097-2123 *)
  | C_is_receiver_token_available => internal_message e && (v_internal v || (v_below_threshold v && v_session v))
  (* core/np_comp_intent.c:522-544 *)
  | C_is_intent_authz => flag t evt_authz && flag t evt_external && flag t evt_token
      && token_has p (fun k => flag (tk_type k) aaatoken_message_intent && v_valid v)
  (* core/np_comp_msgproperty.c:2125-2145 *)
  | C_is_no_token_available => is_message p || internal_message e || external_message e
  (* core/np_comp_msgproperty.c:1579-1592 *)
  | C_is_msgproperty_lifecycle_enable => flag t evt_enable && flag t evt_property && flag t evt_internal
      && match p with PRun => true | _ => false end
  end.

(** ** Actions: their effect on the type flags of the key *)
Definition type_after (a : action) (v : view) (e : event) (ty : Z) : Z :=
  match a with
  (* core/np_comp_alias.c:279-281, 455-457 *)
  | A_alias_set | A_alias_set_node => Z.lor ty type_alias
  (* core/np_comp_node.c:330-333, 412-415 *)
  | A_node_set_node | A_node_set => Z.lor ty type_node
  (* core/np_comp_node.c:509 *)
  | A_wildcard_set => Z.lor ty type_wildcard
  (* core/np_comp_node.c:1488 *)
  | A_wildcard_destroy => Z.ldiff ty type_wildcard
  (* core/np_comp_node.c:1449 *)
  | A_create_client_network => if v_network_failed v then type_unknown else ty
  (* core/np_comp_identity.c:158-184 *)
  | A_set_identity =>
      match e_data e with
      | PToken k =>
          if flag (tk_type k) aaatoken_handshake then Z.lor ty (Z.lor type_node type_interface)
          else if flag (tk_type k) aaatoken_node
               then if v_first_identity v then Z.lor (Z.lor ty type_node) type_ident else Z.lor ty type_node
               else ty
      | _ => ty
      end
  (* core/np_comp_msgproperty.c:1622 *)
  | A_set_property => Z.lor ty type_subject
  (* core/np_comp_alias.c:1351, 1391; core/np_comp_node.c:1192; core/np_comp_identity.c:131 *)
  | A_alias_shutdown | A_alias_destroy | A_node_destroy | A_identity_destroy => type_unknown
  | _ => ty
  end.

(** ** The system *)

(** Where the handling of one event on one key stands (np_statemachine.c:22-75): testing the remaining rules;
    about to run the action, the exit function, to set the state, to run the entry function. *)
Inductive phase :=
| Scan (rs : list (rule action condition))
| Act (r : rule action condition)
| Exit (r : rule action condition)
| Set_ (r : rule action condition)
| Enter (f : option action).

(** One activation of the state machine: its number, the event, the locals [current_state] and [old_state]. *)
Record frame := mkFrame {
  f_run : nat; f_event : event; f_state : sstate action condition; f_old : Z; f_phase : phase }.

(** One np_key_t object; the key lock is recursive, so activations nest like a stack. *)
Record instance := mkInst { i_key : dhkey; i_cur : Z; i_type : Z; i_frames : list frame }.

(** What can be observed, newest first: condition [c] was evaluated and action [a] was run on key object [i] by
    activation [n]; the authenticate callback was asked about the token of an event and answered. *)
Inductive obs :=
| Started (i n : nat) (e : event)
| Tested (i n : nat) (c : condition) (e : event) (v : view) (b : bool)
| Ran (i n : nat) (d : dhkey) (a : action) (e : event)
| Asked (i n : nat) (e : event) (answer : bool).

Record system := mkSys {
  insts : list instance;
  mail : list (dhkey * event);   (** events on their way; they may be delivered in any order *)
  runs : nat;                    (** number of the next activation *)
  trace : list obs }.

Definition empty : system := mkSys [] [] 0 [].

(** One step of the system. *)
Inductive move :=
| New (d : dhkey) (ty : Z)          (** a key object is created; the type flags are not initialised (np_key.c:536) *)
| Mail (d : dhkey) (e : event)      (** some part of the program sends an event *)
| Start (i k : nat)                 (** the k-th event on its way reaches key object [i]; also while it is busy *)
| Go (i : nat) (v : view).          (** the innermost activation on key object [i] makes one step *)

(** np_comp_identity.c:496-558: asking the authenticate callback and the events that follow from its answer.
    The two identical events go to the node of the token and to the key that the request names as its target. *)
Definition authn_mail (k : token) (e : event) (v : view) : list (dhkey * event) :=
  if v_realm_client v then []
  else if v_answer v
       then let node := if flag (tk_type k) aaatoken_node then tk_fingerprint k else tk_partner k in
            let ev := mkEvent (Z.lor evt_internal (Z.lor evt_token evt_authn)) (PToken k) node (e_target e) in
            [(node, ev); (e_target e, ev)]
       else [(tk_fingerprint k, mkEvent (Z.lor evt_internal evt_shutdown) PNone (tk_fingerprint k) (e_target e))].

Definition set_inst (s : system) (i : nat) (x : instance) : system :=
  mkSys (upd (insts s) i x) (mail s) (runs s) (trace s).
Definition observe (s : system) (o : obs) : system := mkSys (insts s) (mail s) (runs s) (o :: trace s).
Definition send (s : system) (m : list (dhkey * event)) : system :=
  mkSys (insts s) (mail s ++ m) (runs s) (trace s).

(** Running action [a] of activation [f] on key object [i]. *)
Definition perform (s : system) (i : nat) (x : instance) (f : frame) (a : action) (v : view) (next : list frame) : system :=
  let x' := mkInst (i_key x) (i_cur x) (type_after a v (f_event f) (i_type x)) next in
  let s := observe (set_inst s i x') (Ran i (f_run f) (i_key x) a (f_event f)) in
  match a, e_data (f_event f) with
  | A_identity_handle_authn, PToken k =>
      if v_authenticated v then s
      else send (observe s (Asked i (f_run f) (f_event f) (v_answer v))) (authn_mail k (f_event f) v)
  | _, _ => s
  end.

Definition with_phase (f : frame) (p : phase) : frame :=
  mkFrame (f_run f) (f_event f) (f_state f) (f_old f) p.
Definition crossing (f : frame) (r : rule action condition) : bool := negb (r_target r =? s_id (f_state f)).

(** np_statemachine.c:33-72, one step at a time.  [None]: the program would read outside the table. *)
Definition go (s : system) (i : nat) (x : instance) (f : frame) (rest : list frame) (v : view) : option system :=
  let stay fs := mkInst (i_key x) (i_cur x) (i_type x) fs in
  match f_phase f with
  | Scan [] => Some (set_inst s i (stay rest))
  | Scan (r :: rs) =>
      if r_active r then
        match r_cond r with
        | None => Some (set_inst s i (stay (with_phase f (Act r) :: rest)))
        | Some c =>
            let b := holds c (i_type x) (i_key x) v (f_event f) in
            Some (observe (set_inst s i (stay (with_phase f (if b then Act r else Scan rs) :: rest)))
                          (Tested i (f_run f) c (f_event f) v b))
        end
      else Some (set_inst s i (stay (with_phase f (Scan rs) :: rest)))
  | Act r =>
      let next := with_phase f (if crossing f r then Exit r else Set_ r) :: rest in
      match r_action r with
      | None => Some (set_inst s i (stay next))
      | Some a => Some (perform s i x f a v next)
      end
  | Exit r =>
      match s_exit (f_state f) with
      | None => None
      | Some a => Some (perform s i x f a v (with_phase f (Set_ r) :: rest))
      end
  | Set_ r =>
      if i_cur x =? f_old f then
        match state_at key_table (r_target r) with
        | Ok st =>
            let next := if crossing f r then with_phase f (Enter (s_enter st)) :: rest else rest in
            Some (set_inst s i (mkInst (i_key x) (r_target r) (i_type x) next))
        | _ => None
        end
      else
        let next := if crossing f r then with_phase f (Enter (s_enter (f_state f))) :: rest else rest in
        Some (set_inst s i (stay next))
  | Enter None => None
  | Enter (Some a) => Some (perform s i x f a v rest)
  end.

(** The events that the environment may send: everything that is not an authentication event. *)
Definition mailable (e : event) : bool := negb (authn_event e).

Definition step (m : move) (s : system) : option system :=
  match m with
  | New d ty => Some (mkSys (insts s ++ [mkInst d UNUSED ty []]) (mail s) (runs s) (trace s))
  | Mail d e => if mailable e then Some (send s [(d, e)]) else None
  | Start i k =>
      match nth_error (insts s) i, nth_error (mail s) k with
      | Some x, Some (d, e) =>
          if d =? i_key x then
            match state_at key_table (i_cur x) with
            | Ok st =>
                let f := mkFrame (runs s) e st (i_cur x) (Scan (s_rules st)) in
                Some (mkSys (upd (insts s) i (mkInst (i_key x) (i_cur x) (i_type x) (f :: i_frames x)))
                            (mail s) (S (runs s)) (Started i (runs s) e :: trace s))
            | _ => None
            end
          else None
      | _, _ => None
      end
  | Go i v =>
      match nth_error (insts s) i with
      | Some x => match i_frames x with f :: rest => go s i x f rest v | [] => None end
      | None => None
      end
  end.

Fixpoint steps (ms : list move) (s : system) : option system :=
  match ms with
  | [] => Some s
  | m :: ms' => match step m s with Some s' => steps ms' s' | None => None end
  end.

(** No activation starts on a key object that is busy: what happens when no action handles a further event on its
    own key. *)
Definition unnested (m : move) (s : system) : Prop :=
  match m with
  | Start i _ => match nth_error (insts s) i with Some x => i_frames x = [] | None => True end
  | _ => True
  end.
Fixpoint all_unnested (ms : list move) (s : system) : Prop :=
  match ms with
  | [] => True
  | m :: ms' => unnested m s /\ match step m s with Some s' => all_unnested ms' s' | None => True end
  end.
