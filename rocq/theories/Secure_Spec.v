(** What the partners of a connection expect, and the laws of libsodium it takes. *)
From Verif Require Import Base Dhkey_Model Message_Model Wire_Model Wire_Spec Secure_Model.

(** the cipher, for every key: what was sealed is opened again (Wire_Spec.cipher) *)
Definition ciphers {K} (seal : K -> list Z -> list Z -> list Z -> list Z * list Z) (unseal : K -> list Z -> list Z -> list Z -> list Z -> option (list Z)) : Prop :=
  forall k, cipher (seal k) (unseal k).
(** nobody without the key makes something that opens: whatever arrives and opens with a key was sealed by somebody who has it ([made]) *)
Definition unforgeable {K} (unseal : K -> list Z -> list Z -> list Z -> list Z -> option (list Z)) (made : K -> list Z -> list Z -> Prop) (arrived : list Z -> Prop) : Prop :=
  forall w k p, arrived w -> unseal k (slice w 1034 12) [] (slice w 0 16) (slice w 16 1018) = Some p -> made k (slice w 1034 12) p.

(** key exchange: for each ordered pair (client, server) there are two keys, one for each direction, and all of them differ.
    [pub]: public key of a secret key; [half c s true]: from client to server *)
Record exchange_law {K} (x : exchange K) (pub : Z -> Z) (half : Z -> Z -> bool -> K) : Prop := {
  xl_client : forall sk peer, kx_client x sk (pub sk) peer = Some (half (pub sk) peer false, half (pub sk) peer true);
  xl_server : forall sk peer, kx_server x sk (pub sk) peer = Some (half peer (pub sk) true, half peer (pub sk) false);
  xl_sep : forall c s d c' s' d', half c s d = half c' s' d' -> c = c' /\ s = s' /\ d = d' }.

(** the session [me] has with [peer], once it got the handshake of [peer]; whatever was there before *)
Definition holds {K} (x : exchange K) (me peer : party) (s : session K) : Prop :=
  exists old, s = create_session x me (Some (p_prio peer)) (p_pk peer) old.
Definition sound (pub : Z -> Z) (a : party) : Prop := p_pk a = pub (p_sk a).
(** two nodes that shook hands: each got the handshake of the other, and their priorities differ *)
Definition linked {K} (x : exchange K) (pub : Z -> Z) (sa sb : session K) : Prop :=
  exists a b, sound pub a /\ sound pub b /\ p_prio a <> p_prio b /\ holds x a b sa /\ holds x b a sb.

(** what a packet says, apart from the instructions for one hop (mac, sequence number, hop count: the first 22 bytes) *)
Definition content (d : list Z) : list Z := skipn 22 d.
Definition datagram (d : list Z) : Prop := length d = 1046%nat.

(** every hop is between two nodes that shook hands, and a packet with this time stamp and time to live is not late when it arrives *)
Definition good_path {K} (x : exchange K) (pub : Z -> Z) (late : list Z -> Z -> Z -> bool) (tstamp : list Z) (ttl : Z) (path : list (hop (K := K))) : Prop :=
  Forall (fun h => linked x pub (h_from h) (h_to h) /\ 0 <= h_seq h < 4294967296 /\ late tstamp ttl (h_now h) = false) path.

(** what was sealed by nodes: [sent] lists who sent what to whom; each node uses the key of its session with the addressee *)
Definition made_by {K} (x : exchange K) (nodes : Z -> party) (sent : list (Z * Z * list Z)) (k : K) (nonce p : list Z) : Prop :=
  exists a b s d, In (a, b, d) sent /\ holds x (nodes a) (nodes b) s /\ s_write s = Some k /\ skipn 16 d = p ++ nonce.

(** the datagrams a node accepts, one after the other *)
Definition accepts {K} (unseal : K -> list Z -> list Z -> list Z -> list Z -> option (list Z)) late (s : session K) (l : list (Z * list Z)) : list (option (list Z)) :=
  map (fun x => alias_decrypt unseal late s (fst x) (snd x)) l.

(** the packets of a list of messages (memory of the message, number of packets), whatever their instructions *)
Definition wire_packets (ms : list (list Z * nat)) (ins : nat -> instructions) : list (list Z) :=
  concat (map (fun x => packets (fst (snd x)) (snd (snd x)) (ins (fst x))) (combine (seq 0 (length ms)) ms)).
(** ... and what goes over the wire when they are sent in one session *)
Definition sent_as {K} seal (s : session K) (sqs : nat -> Z) (ds ws : list (list Z)) : Prop :=
  map (fun i => send_encrypted seal s (sqs i) (nth i ds [])) (seq 0 (length ds)) = map Some ws.
(** the nonce of a datagram (its last twelve bytes); bytes 2 to 11 of the nonce of a message *)
Definition nonce_on_wire (w : list Z) : list Z := skipn 1034 w.
Definition nonce_tail (b : list Z) : list Z := skipn 2 (firstn 12 b).
(** a message with its random nonce: frame, and that many chunks *)
Definition message_memory (m : list Z * nat) : Prop :=
  Forall (fun b => 0 <= b < 256) (firstn 12 (fst m)) /\ length (fst m) = (124 + 900 * snd m)%nat /\ Z.of_nat (snd m) <= 65536.
(** the bytes that are encrypted *)
Definition text (d : list Z) : list Z := firstn 1018 (skipn 16 d).
(** a stream cipher: bytes of the text are combined with bytes that depend on key and nonce only *)
Definition stream {K} (seal : K -> list Z -> list Z -> list Z -> list Z * list Z) : Prop :=
  exists ks : K -> list Z -> nat -> Z, forall k nonce h p i, (i < length p)%nat -> nth i (snd (seal k nonce h p)) 0 = Z.lxor (nth i p 0) (ks k nonce i).

(** only the key something was sealed with opens it *)
Definition own_key {K} (seal : K -> list Z -> list Z -> list Z -> list Z * list Z) (unseal : K -> list Z -> list Z -> list Z -> list Z -> option (list Z)) : Prop :=
  forall k k' nonce p q, p <> [] -> let '(mac, c) := seal k nonce [] p in unseal k' nonce [] mac c = Some q -> k' = k.
(** each packet of a message takes a path of its own; [arrivals] is what comes out of the paths *)
Definition carried {K} seal unseal late (paths : nat -> list (hop (K := K))) (sent arrivals : list (list Z)) : Prop :=
  map (fun i => relay seal unseal late true (paths i) (nth i sent [])) (seq 0 (length sent)) = map Some arrivals.
