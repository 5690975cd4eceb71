(** Model of message chunking and reassembly: src/np_message.c, packet assembly in
    src/core/np_comp_node.c and the part cache of src/core/np_comp_alias.c.
    Not modelled: encryption, reference counts of the parts, realloc/calloc failure. *)
From Verif Require Import Base.

(** include/np_settings.h *)
Definition MSG_MAC_SIZE : Z := 16.
Definition MSG_NONCE_SIZE : Z := 12.
Definition MSG_HEADER_SIZE : Z := 96.
Definition MSG_CHUNK_SIZE : Z := 1024.
Definition fixed_header_bytes : Z := MSG_HEADER_SIZE + MSG_NONCE_SIZE + MSG_MAC_SIZE.
Definition chunk_bytes : Z := MSG_CHUNK_SIZE - fixed_header_bytes.

(** src/np_message.c:581-607, 669-690: binary_length for a serialised body of [object_size] bytes (size_t arithmetic) *)
Definition binary_length (object_size : Z) : Z :=
  let q := object_size / chunk_bytes in
  let new_size := if object_size mod chunk_bytes =? 0 then q else q + 1 in
  u64 (new_size * chunk_bytes + fixed_header_bytes).

(** src/np_message.c:145-169: the cast to uint16_t binds to the parenthesised difference, before the division *)
Definition calculate_chunking (len : Z) : Z :=
  let chunks := u32 (u16 (u64 (len - fixed_header_bytes)) / chunk_bytes) in
  if 65535 <? chunks then 65535 else u16 chunks.

(** An end to end message in binary state.  mac and nonce: their first two bytes read little endian
    (sodium_add/sub/compare on two bytes) and the remaining bytes. *)
Record message := mkMsg { mac16 : Z; mac_rest : list Z; nonce16 : Z; nonce_rest : list Z; header : list Z; parts : Z; body : list Z }.
(** One packet on the wire; [pparts] is the parts field inside the header. *)
Record packet := mkPk { pmac16 : Z; pmac_rest : list Z; pnonce16 : Z; pnonce_rest : list Z; pheader : list Z; pparts : Z; pbody : list Z }.

Definition slice (l : list Z) (from len : nat) : list Z := firstn len (skipn from l).

(** src/np_message.c:357-416 and src/core/np_comp_node.c:1490-1537: chunk [i]; the offset is added to
    the mac and subtracted from the nonce (two bytes, wrapping) *)
Definition packet_of (m : message) (i : nat) : packet :=
  mkPk (u16 (mac16 m + Z.of_nat i)) (mac_rest m) (u16 (nonce16 m - Z.of_nat i)) (nonce_rest m) (header m) (parts m)
       (slice (body m) (i * Z.to_nat chunk_bytes) (Z.to_nat chunk_bytes)).
(** src/np_message.c:357-416: the while loop over parts *)
Definition packets_of (m : message) : list packet := map (packet_of m) (seq 0 (Z.to_nat (parts m))).

(** receiver side: msg_chunks (None until the first chunk), msg->mac_e's first two bytes, msg_chunk_counter *)
Record rstate := mkR { slots : list (option packet); base : Z; counter : Z }.

(** src/np_message.c:183-207: first chunk.  calloc(0) followed by the store to element 0 is out of bounds. *)
Definition first_chunk (p : packet) : outcome (bool * rstate) :=
  if pparts p =? 0 then UB
  else Ok (true, mkR (Some p :: repeat None (Z.to_nat (pparts p) - 1)) (pmac16 p) 1).

(** src/np_message.c:209-299.  sodium_compare and sodium_sub work on the first two mac bytes (little
    endian); memcmp over the whole mac.  Fuel bounds the re-insertion recursion. *)
Definition mac_eqb (p q : packet) : bool := (pmac16 p =? pmac16 q) && (if list_eq_dec Z.eq_dec (pmac_rest p) (pmac_rest q) then true else false).
Fixpoint add_chunk (fuel : nat) (s : rstate) (p : packet) : outcome (bool * rstate) :=
  match fuel with
  | O => UB
  | S fuel' =>
      if pmac16 p =? base s then Ok (false, s)                          (* base chunk already present *)
      else if pmac16 p <? base s then
        match slots s with
        | Some old :: rest =>                                            (* new base, re-insert the old one *)
            obind (add_chunk fuel' (mkR (Some p :: rest) (pmac16 p) (counter s)) old) (fun '(_, s') => Ok (true, s'))
        | _ => UB
        end
      else
        let i := Z.to_nat (u16 (pmac16 p - base s)) in
        if (length (slots s) <=? i)%nat then UB                          (* msg_chunks[i] out of bounds *)
        else match nth i (slots s) None with
        | Some old =>
            if mac_eqb p old then Ok (false, s)                          (* already present *)
            else obind (add_chunk fuel' (mkR (upd (slots s) i (Some p)) (base s) (counter s)) old) (fun '(_, s') => Ok (true, s'))
        | None => Ok (true, mkR (upd (slots s) i (Some p)) (base s) (u16 (counter s + 1)))
        end
  end.

(** src/np_message.c:490-542: reassembly; a missing chunk fails *)
Fixpoint bodies (l : list (option packet)) : option (list Z) :=
  match l with
  | [] => Some []
  | Some p :: l' => option_map (app (pbody p)) (bodies l')
  | None :: _ => None
  end.
Definition deserialize_chunks (s : rstate) : outcome (option message) :=
  match slots s with
  | Some p0 :: _ =>
      if pparts p0 =? 0 then Abort                                       (* assert *)
      else if Z.of_nat (length (slots s)) <? pparts p0 then UB           (* reads past msg_chunks *)
      else Ok (option_map (fun b => mkMsg (pmac16 p0) (pmac_rest p0) (pnonce16 p0) (pnonce_rest p0) (pheader p0) (pparts p0) b)
                          (bodies (firstn (Z.to_nat (pparts p0)) (slots s))))
  | _ => UB
  end.

(** a message entry of the part cache: None until the first chunk *)
Definition receive (fuel : nat) (o : option rstate) (p : packet) : outcome (bool * rstate) :=
  match o with None => first_chunk p | Some s => add_chunk fuel s p end.
Fixpoint receive_all (fuel : nat) (o : option rstate) (ps : list packet) : outcome (option rstate) :=
  match ps with
  | [] => Ok o
  | p :: ps' => obind (receive fuel o p) (fun '(_, s) => receive_all fuel (Some s) ps')
  end.
(** src/core/np_comp_alias.c:82-111: a message is handed on when the counter equals parts *)
Definition reported_complete (o : option rstate) : bool :=
  match o with
  | Some s => match slots s with Some p0 :: _ => counter s =? pparts p0 | _ => false end
  | None => false
  end.

(** src/np_message.c:301-354: expiry.  Times are whole microseconds (C: double seconds), ttl is in seconds (uint32_t). *)
Definition expiry (tstamp ttl : Z) : Z := tstamp + ttl * 1000000.
Definition is_expired (tstamp ttl now : Z) : bool := expiry tstamp ttl - now <=? 0.
(** src/np_message.c:619-631: ttl put into a message; [None]: no outbound property, MSGPROPERTY_DEFAULT_MSG_TTL = 2*NP_PI*NP_PI.
    The double quotient is converted to uint32_t (truncated towards zero; out of range is undefined).
    Simplified: the configured ttl is a whole number of microseconds, the quotient is exact. *)
Definition default_msg_ttl : Z := 19.
Definition message_ttl (prop : option (Z * Z)) : outcome Z :=
  obind (match prop with
         | None => Ok default_msg_ttl
         | Some (ttl_us, retry) =>
             let t := Z.quot ttl_us (1000000 * (u8 retry + 1)) in
             if (t <? 0) || (4294967295 <? t) then UB else Ok t
         end) (fun t => Ok (if t =? 0 then 1 else t)).
