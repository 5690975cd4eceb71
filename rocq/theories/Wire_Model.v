(** A message as bytes: src/np_message.c (layout, creation, packets, joining, reading), src/core/np_comp_node.c
    (_np_node_build_network_packet), src/neuropil.c (np_send_to, __np_receive_callback_converter),
    src/core/np_comp_identity.c (__np_extract_handshake: the first packet of a peer).
    The host is little endian.  A double is its 8 bytes.  Time and random numbers are parameters.  Not modelled: reference
    counts, allocation failure (hop by hop encryption: Secure_Model).  libsodium's cipher is a parameter. *)
From Verif Require Import Base Dhkey_Model Rbtree_Model Tree_Model Tree_Spec Cbor_Model Treeval_Model Treeval_Spec Message_Model.
From Verif Require Data_Model.

(** memory of an unsigned number *)
Fixpoint le (n : nat) (v : Z) : list Z := match n with O => [] | S n' => v mod 256 :: le n' (v / 256) end.
Fixpoint unle (bs : list Z) : Z := match bs with [] => 0 | b :: r => b + 256 * unle r end.

(** np_message.h / np_message.c:54-59: the header fields *)
Record fields := mkF { f_subject : Dhkey_Model.key; f_audience : Dhkey_Model.key; f_uuid : list Z; f_tstamp : list Z; f_ttl : Z; f_parts : Z; f_flags : Z }.
Definition dhkey_mem (k : Dhkey_Model.key) : list Z := flat_map (le 4) k.
(** the header area as written through the pointers of __set_header_pointer (np_message.c:61-91) *)
Definition header_mem (f : fields) : list Z :=
  dhkey_mem (f_subject f) ++ dhkey_mem (f_audience f) ++ f_uuid f ++ f_tstamp f ++ le 4 (f_ttl f) ++ le 2 (f_parts f) ++ le 2 (f_flags f).
(** np_message.c:61-91 __set_header_pointer: where the fields are read in a header (same order and sizes as
    np_message.c:437-450 in a packet) *)
Fixpoint words (n : nat) (bs : list Z) : list Z := match n with O => [] | S n' => unle (firstn 4 bs) :: words n' (skipn 4 bs) end.
Definition read_fields (h : list Z) : fields :=
  mkF (words 8 (slice h 0 32)) (words 8 (slice h 32 32)) (slice h 64 16) (slice h 80 8) (unle (slice h 88 4)) (unle (slice h 92 2)) (unle (slice h 94 2)).

(** np_message.c:581-667 _np_message_create with data.  [fill]: what the allocated memory holds where nonce and mac will be;
    [pad]: the random bytes.  If the buffer is too small (or a value cannot be written) nothing counts as written and the
    whole body is filled with random bytes; the error is not looked at. *)
Definition create (f : fields) (t : vtree) (fill : list Z) (pad : nat -> Z) : list Z :=
  let len := binary_length (np_tree_get_byte_size t) in
  let room := Z.to_nat (len - fixed_header_bytes) in
  let written := match np_serializer_write_map t with Some bs => if (length bs <=? room)%nat then bs else [] | None => [] end in
  fill ++ header_mem (mkF (f_subject f) (f_audience f) (f_uuid f) (f_tstamp f) (f_ttl f) (calculate_chunking len) (f_flags f))
       ++ written ++ map pad (seq 0 (room - length written)).

(** parts of binary_message (np_message.c:61-91, 367-370) *)
Definition nonce_of (b : list Z) : list Z := slice b 0 12.
Definition mac_of (b : list Z) : list Z := slice b 12 16.
Definition header_of (b : list Z) : list Z := slice b 28 96.
Definition body_of (b : list Z) : list Z := skipn 124 b.

(** np_message.c:744-774: the header is authenticated, the body replaced *)
Definition encrypt (seal : list Z -> list Z -> list Z -> list Z * list Z) (nonce b : list Z) : list Z :=
  let '(mac, c) := seal nonce (header_of b) (body_of b) in nonce ++ mac ++ header_of b ++ c.
(** np_message.c:784-815 *)
Definition decrypt (unseal : list Z -> list Z -> list Z -> list Z -> option (list Z)) (b : list Z) : option (list Z) :=
  match unseal (nonce_of b) (header_of b) (mac_of b) (body_of b) with Some p => Some (nonce_of b ++ mac_of b ++ header_of b ++ p) | None => None end.

(** sodium_add and sodium_sub on the first two bytes *)
Definition shift2 (bs : list Z) (d : Z) : list Z := le 2 (u16 (unle (firstn 2 bs) + d)) ++ skipn 2 bs.
(** np_message.c:357-416 and np_comp_node.c:1491-1537: packet [i]; [mac_n], [seq] and [hop] are the instructions (22 bytes) *)
Definition build_packet (b : list Z) (i : nat) (mac_n : list Z) (seq_no hop : Z) : list Z :=
  mac_n ++ le 4 seq_no ++ le 2 hop
    ++ shift2 (mac_of b) (Z.of_nat i) ++ header_of b ++ slice (body_of b) (i * Z.to_nat chunk_bytes) (Z.to_nat chunk_bytes)
    ++ (if (0 <? i)%nat then shift2 (nonce_of b) (- Z.of_nat i) else nonce_of b).
(** np_message.c:418-468 _np_message_deserialize_header_and_instructions, as a packet of Message_Model *)
Definition parse_packet (d : list Z) : packet :=
  let mac := slice d 22 16 in let h := slice d 38 96 in let nonce := slice d 1034 12 in
  mkPk (unle (firstn 2 mac)) (skipn 2 mac) (unle (firstn 2 nonce)) (skipn 2 nonce) h (unle (slice h 92 2)) (slice d 134 900).
(** np_message.c:490-542: the memory after joining *)
Definition joined (m : message) : list Z :=
  (le 2 (nonce16 m) ++ nonce_rest m) ++ (le 2 (mac16 m) ++ mac_rest m) ++ header m ++ body m.

(** np_message.c:544-571 _np_message_readbody.  The length handed to the decoder is binary_length: 124 bytes more than there
    are; [beyond] is the memory behind the message *)
Definition readbody (b beyond : list Z) : option tval :=
  match np_serializer_read_map (firstn (length b) (body_of b ++ beyond)) with Some (v, _) => Some v | None => None end.

(** np_constants.h:56-57 *)
Definition USERDATA : list Z := [110; 112; 46; 117; 115; 101; 114; 100; 97; 116; 97].
Definition ATTRIBUTES : list Z := [110; 112; 46; 97; 116; 116; 114; 105; 98; 117; 116; 101; 115].
(** neuropil.c:665-694: the body of a user message *)
Definition user_body (payload attributes : list Z) : outcome vtree :=
  vrun (Insert (UStr USERDATA) (VBin payload) :: if (0 <? length attributes)%nat then [Insert (UStr ATTRIBUTES) (VBin attributes)] else []).
(** neuropil.c:740-790 __np_receive_callback_converter: what the callback is called with ([None]: it is not called).  The
    type of the values is not looked at: a number is taken for a pointer.  Attributes that do not fit are left out (the
    area stays zero).  Simplified: the tree is the list of its entries (finding a key in it is C18); the sender's
    fingerprint is looked up in the attributes (C20) and is left out here, as is the time of arrival. *)
Record user_message := mkU { u_uuid : list Z; u_subject : Dhkey_Model.key; u_data : list Z; u_attributes : list Z }.
Definition same_key (u : ukey) (k : list Z) : bool := match u with UStr s => if list_eq_dec Z.eq_dec s k then true else false | _ => false end.
Fixpoint entry (k : list Z) (l : list (ukey * tval)) : option tval :=
  match l with [] => None | (u, v) :: r => if same_key u k then Some v else entry k r end.
Definition memory_of (v : tval) : outcome (list Z) := match v with VBin b => Ok b | VStr s => Ok s | _ => UB end.
Definition NP_EXTENSION_BYTES : nat := Z.to_nat 10240.
Definition zeros (n : nat) : list Z := repeat 0 n.
Definition callback (b : list Z) (tree : list (ukey * tval)) : outcome (option user_message) :=
  let f := read_fields (header_of b) in
  match entry USERDATA tree with
  | None => Ok None
  | Some v =>
    obind (memory_of v) (fun data =>
    obind (match entry ATTRIBUTES tree with
           | None => match Data_Model.np_init_datablock (zeros NP_EXTENSION_BYTES) 10240 with Data_Model.Done (_, block) => Ok block | _ => Abort end
           | Some a => obind (memory_of a) (fun m => Ok (if (length m <=? NP_EXTENSION_BYTES)%nat then m ++ zeros (NP_EXTENSION_BYTES - length m) else zeros NP_EXTENSION_BYTES))
           end) (fun attr =>
    Ok (Some (mkU (f_uuid f) (f_subject f) data attr))))
  end.
(** np_dendrit.c:287-334 _np_in_callback_wrapper, with a crypto session that is not an initial one: decrypt, read the body,
    call; [None]: the message is dropped *)
Definition deliver (unseal : list Z -> list Z -> list Z -> list Z -> option (list Z)) (b beyond : list Z) : outcome (option user_message) :=
  match decrypt unseal b with
  | None => Ok None
  | Some p => match readbody p beyond with
    | Some (VTree Plain tree) => callback p tree
    | _ => Ok None
    end
  end.

(** np_comp_identity.c:322-371 __np_extract_handshake: a datagram that arrives at the socket.  If its subject is the
    handshake's ([subject], the hash of a fixed name) it becomes a message of its own; the result of joining is not looked
    at, and reading the body asserts that the message is in binary state (np_message.c:548).  [None]: ignored *)
Definition extract_handshake (subject : Dhkey_Model.key) (d beyond : list Z) : outcome (option tval) :=
  let p := parse_packet d in
  if list_eq_dec Z.eq_dec (words 8 (slice (pheader p) 0 32)) subject then
    obind (first_chunk p) (fun '(_, s) =>
    obind (deserialize_chunks s) (fun o =>
    match o with Some m => Ok (readbody (joined m) beyond) | None => Abort end))
  else Ok None.
