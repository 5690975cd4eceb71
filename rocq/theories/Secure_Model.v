(** Packets between two nodes: src/np_crypto.c (session keys, sealing), src/core/np_comp_alias.c (session of a peer, arrival of a
    packet), src/core/np_comp_node.c (departure of a packet), src/np_axon.c (forwarding).
    libsodium's key exchange and cipher are parameters.  A datagram is a list of 1046 bytes (22 of instructions, 1024 of a chunk;
    np_settings.h).  Not modelled: queues of the network, the filters for duplicates (C43), reference counts, logging. *)
From Verif Require Import Base Dhkey_Model Message_Model Wire_Model.

(** np_crypto.h np_crypto_session_t and the flag session_key_is_set of np_node_t: [None] is a key whose flag is not set *)
Record session (K : Type) := mkS { s_set : bool; s_read : option K; s_write : option K }.
Arguments mkS {K}. Arguments s_set {K}. Arguments s_read {K}. Arguments s_write {K}.
(** np_crypto.c:50-60 _np_crypto_session_t_new, np_node.c:62 *)
Definition no_session {K} : session K := mkS false None None.

(** libsodium crypto_kx_client_session_keys and crypto_kx_server_session_keys: own secret key, own public key, public key of the
    peer; the keys to read and to write with, or failure *)
Record exchange (K : Type) := mkX { kx_client : Z -> Z -> Z -> option (K * K); kx_server : Z -> Z -> Z -> option (K * K) }.
Arguments mkX {K}. Arguments kx_client {K}. Arguments kx_server {K}.

(** np_crypto.c:278-314 np_crypto_session: keys and their flags change on success only *)
Definition crypto_session {K} (x : exchange K) (sk pk remote_pk : Z) (remote_is_client : bool) (s : session K) : session K :=
  match (if remote_is_client then kx_server x else kx_client x) sk pk remote_pk with
  | Some (rx, tx) => mkS (s_set s) (Some rx) (Some tx)
  | None => s
  end.

(** a node as seen in its handshake: its keys and the priority of the interface (np_token_factory.c:351-356 and
    np_node.c:435-448: the attribute of the handshake token, 0 if it has none) *)
Record party := mkParty { p_sk : Z; p_pk : Z; p_prio : Z }.
(** np_comp_alias.c:471-553 __np_create_session: the priorities decide who takes the part of the client.  Simplified: the interface
    whose token the peer got and the interface looked up here are the same *)
Definition create_session {K} (x : exchange K) (me : party) (remote_prio : option Z) (remote_pk : Z) (s : session K) : session K :=
  let prio := match remote_prio with Some p => p | None => 0 end in
  let s1 := crypto_session x (p_sk me) (p_pk me) remote_pk (negb (prio <? p_prio me)) s in
  mkS true (s_read s1) (s_write s1).

(** the places of a datagram (np_message.c:418-468) *)
Definition d_mac (d : list Z) : list Z := slice d 0 16.
Definition d_sealed (d : list Z) : list Z := slice d 16 1018.
Definition d_nonce (d : list Z) : list Z := slice d 1034 12.
Definition d_hop (d : list Z) : Z := unle (slice d 20 2).
Definition d_tstamp (d : list Z) : list Z := slice d 118 8.
Definition d_ttl (d : list Z) : Z := unle (slice d 126 4).

Section Hop.
Context {K : Type}.
Variable seal : K -> list Z -> list Z -> list Z -> list Z * list Z.
Variable unseal : K -> list Z -> list Z -> list Z -> list Z -> option (list Z).
(** comparison of the time stamp (a double, 8 bytes) plus the time to live with the clock (np_comp_alias.c:575-588) *)
Variable late : list Z -> Z -> Z -> bool.

(** np_comp_node.c:1652-1668 with np_crypto.c:205-249: in place, the nonce stays readable *)
Definition seal_packet (k : K) (d : list Z) : list Z :=
  let '(mac, c) := seal k (d_nonce d) [] (d_sealed d) in mac ++ c ++ d_nonce d.
(** np_comp_alias.c:630-644 with np_crypto.c:251-275 *)
Definition open_packet (k : K) (d : list Z) : option (list Z) :=
  match unseal k (d_nonce d) [] (d_mac d) (d_sealed d) with Some p => Some (d_mac d ++ p ++ d_nonce d) | None => None end.

(** np_comp_node.c:1504-1506: sequence number and hop count *)
Definition set_instructions (d : list Z) (sq hop : Z) : list Z := slice d 0 16 ++ le 4 sq ++ le 2 hop ++ skipn 22 d.
(** np_comp_node.c:1610-1718 __np_node_send_encrypted of a packet that was built or that is forwarded; [None]: not sent *)
Definition send_encrypted (s : session K) (sq : Z) (d : list Z) : option (list Z) :=
  match s_write s with Some k => Some (seal_packet k (set_instructions d sq (d_hop d))) | None => None end.
(** np_comp_alias.c:590-711 __np_alias_decrypt at time [now]; [None]: dropped *)
Definition alias_decrypt (s : session K) (now : Z) (d : list Z) : option (list Z) :=
  if s_set s then
    match s_read s with
    | None => None
    | Some k => match open_packet k d with
      | None => None
      | Some p => if late (d_tstamp p) (d_ttl p) now then None else Some p
      end
    end
  else None.
(** np_axon.c:291-292 _np_out_forward (the hop count of the parsed packet, uint16_t) *)
Definition forward (d : list Z) : list Z := set_instructions d (unle (slice d 16 4)) (u16 (d_hop d + 1)).

(** a packet on its way: at each hop the session of the one who sends, the session of the one who receives, the next sequence number
    and the time of arrival.  A node in between forwards what it received *)
Record hop := mkHop { h_from : session K; h_to : session K; h_seq : Z; h_now : Z }.
Fixpoint relay (first : bool) (path : list hop) (d : list Z) : option (list Z) :=
  match path with
  | [] => Some d
  | h :: r =>
    match send_encrypted (h_from h) (h_seq h) (if first then d else forward d) with
    | None => None
    | Some w => match alias_decrypt (h_to h) (h_now h) w with None => None | Some d' => relay false r d' end
    end
  end.
End Hop.
