(** Addresses of nodes: what np_listen, np_get_address and np_join do with the strings
    "fingerprint:protocol:host:port".  C strings are lists of bytes without the terminator.

    Not modelled: the sockets themselves (a listening interface is recorded together with the
    success of its creation), the start of jobqueue, network and statistics in _np_listen_safe
    (assumed to succeed), reference counts, log messages, the locks of the key cache.
    The operating system is given by the functions of [env]. *)
From Coq Require Import String Ascii.
From Verif Require Import Base Dhkey_Model.
From Coq Require Import List.
Open Scope Z_scope.
Open Scope list_scope.

Notation str := (list Z).

(** String literals of the C source as bytes. *)
Definition lit (s : string) : str :=
  map (fun c => Z.of_N (N_of_ascii c)) (list_ascii_of_string s).

Fixpoint streq (a b : str) : bool :=
  match a, b with
  | [], [] => true
  | x :: a', y :: b' => (x =? y) && streq a' b'
  | _, _ => false
  end.

(** strncmp(a, b, n) == 0: the strings agree up to the n-th byte or their common end. *)
Definition strneq (n : nat) (a b : str) : bool := streq (firstn n a) (firstn n b).

(** strchr(s, c): position of the first [c]. *)
Fixpoint strchr (c : Z) (s : str) : option nat :=
  match s with
  | [] => None
  | x :: s' => if x =? c then Some 0%nat else option_map S (strchr c s')
  end.

(** strrchr(s, c): position of the last [c]. *)
Fixpoint strrchr (c : Z) (s : str) : option nat :=
  match s with
  | [] => None
  | x :: s' => match strrchr c s' with
               | Some i => Some (S i)
               | None => if x =? c then Some 0%nat else None
               end
  end.

(** strstr(s, t) != NULL. *)
Fixpoint prefixb (t s : str) : bool :=
  match t, s with
  | [], _ => true
  | x :: t', y :: s' => (x =? y) && prefixb t' s'
  | _ :: _, [] => false
  end.
Fixpoint strstr (s t : str) : bool :=
  prefixb t s || match s with [] => false | _ :: s' => strstr s' t end.

(** include/np_network.h:46-54 *)
Definition UNKNOWN_PROTO : Z := 1.
Definition IPv4 : Z := 2.
Definition IPv6 : Z := 4.
Definition MASK_IP : Z := 15.
Definition UDP : Z := 16.
Definition TCP : Z := 32.
Definition PASSIVE : Z := 256.

(** include/np_util.h:53 FLAG_CMP *)
Definition flag (data f : Z) : bool := Z.land data f =? f.

(** src/np_network.c:155-184 _np_network_parse_protocol_string: four characters are compared,
    what follows is not looked at. *)
Definition parse_protocol (s : str) : Z :=
  let is p := strneq 4 s (lit p) in
  if is "tcp4"%string then Z.lor TCP IPv4
  else if is "tcp6"%string then Z.lor TCP IPv6
  else if is "pas4"%string then Z.lor PASSIVE IPv4
  else if is "pas6"%string then Z.lor PASSIVE IPv6
  else if is "udp4"%string then Z.lor UDP IPv4
  else if is "udp6"%string then Z.lor UDP IPv6
  else UNKNOWN_PROTO.

(** src/np_network.c:186-201 _np_network_get_protocol_string *)
Definition protocol_string (p : Z) : str :=
  if flag p (Z.lor PASSIVE IPv4) then lit "pas4"
  else if flag p (Z.lor PASSIVE IPv6) then lit "pas6"
  else if flag p (Z.lor TCP IPv4) then lit "tcp4"
  else if flag p (Z.lor TCP IPv6) then lit "tcp6"
  else if flag p (Z.lor UDP IPv4) then lit "udp4"
  else if flag p (Z.lor UDP IPv6) then lit "udp6"
  else lit "UNKNOWN_PROTOCOL".

(** include/np_node.h np_node_s: the part of a node that comes from an address. *)
Record node := Node { n_key : str; n_proto : Z; n_ip : str; n_port : str }.

(** src/np_node.c:126-163 __get_node_details_from_string: the first two colons and the last
    one; the three must be different.  Result: fingerprint, protocol, host, port. *)
Definition node_details (s : str) : option (str * str * str * str) :=
  match strrchr 58 s with
  | None => None
  | Some d2 =>
    match strchr 58 s with
    | None => None
    | Some d0 =>
      match strchr 58 (skipn (S d0) s) with
      | None => None
      | Some i =>
        let d1 := (S d0 + i)%nat in
        if Nat.eqb d0 d1 || Nat.eqb d1 d2 then None
        else Some (firstn d0 s,
                   firstn i (skipn (S d0) s),
                   firstn (d2 - S d1) (skipn (S d1) s),
                   skipn (S d2) s)
      end
    end
  end.

(** src/np_node.c:530-547 _np_node_update (host cut to 40, port to 5 characters) for a new
    node, and the host key that the callers set. *)
Definition node_update (hostkey : str) (proto : Z) (host port : str) : node :=
  Node hostkey proto (firstn 40 host) (firstn 5 port).

(** src/np_node.c:219-290 _np_node_decode_from_str.  [Abort]: the ASSERT on the empty string.
    A fingerprint that is not understood becomes the wildcard "*". *)
Definition node_decode_from_str (key : str) : outcome (option node) :=
  match key with
  | [] => Abort
  | _ =>
    match node_details (firstn 255 key) with
    | None => Ok None
    | Some (dh, pr, host, port) =>
      let proto := parse_protocol pr in
      if flag proto UNKNOWN_PROTO then Ok None
      else
        let dh := if np_dhkey_equal dhkey_min (np_dhkey_create_from_hash dh)
                  then lit "*" else dh in
        Ok (Some (node_update (firstn 64 dh) proto host port))
    end
  end.

(** src/np_node.c:355-465 _np_node_from_token: the subject is read from the 'e' of
    "urn:np:node", so that the text before the first colon is "e".  The attributes
    (priority, message rate) are left out. *)
Definition node_from_token (subject issuer : str) : option node :=
  match node_details (firstn 255 (skipn 10 subject)) with
  | None => None
  | Some (_, pr, host, port) =>
    let proto := parse_protocol pr in
    if flag proto UNKNOWN_PROTO then None
    else Some (node_update (firstn 64 issuer) proto host port)
  end.

(** src/np_token_factory.c:344-349: subject of a handshake token, at most 253 characters. *)
Definition handshake_subject (proto : Z) (ip port : str) : str :=
  firstn 253 (lit "urn:np:node:" ++ protocol_string proto ++ lit ":" ++ ip ++ lit ":" ++ port).

(** src/np_legacy.c:543-553 np_build_connection_string *)
Definition build_connection_string (hash : option str) (proto host port : str) : str :=
  match hash with
  | Some h => h ++ lit ":" ++ proto ++ lit ":" ++ host ++ lit ":" ++ port
  | None => proto ++ lit ":" ++ host ++ lit ":" ++ port
  end.

(** An entry of the key cache: key, type bits (include/np_key.h:43-50) and node. *)
Record entry := Entry { e_key : key; e_type : Z; e_node : option node }.
Definition key_type_node : Z := 4.
Definition key_type_interface : Z := 32.

(** What the operating system answers.
    [local_ip]: src/np_network.c:1548-1614 _np_network_get_local_ip (getifaddrs);
    [remote_ip]: src/np_network.c:1616-1663 _np_network_get_remote_ip, empty when the name
    does not resolve; [outgoing_ip]: src/np_network.c:1460-1510 _np_network_get_outgoing_ip;
    [pton4], [pton6]: inet_pton (host byte order number / 16 bytes);
    [fp]: fingerprint of the n-th token with this subject (src/np_aaatoken.c,
    np_aaatoken_get_fingerprint); [bind_ok]: _np_network_init of the n-th interface;
    [hash]: _np_dhkey_generate_hash. *)
Record env := Env {
  local_ip : str -> Z -> option str;
  remote_ip : str -> Z -> str;
  outgoing_ip : str -> Z -> option str;
  pton4 : str -> option Z;
  pton6 : str -> option (list Z);
  fp : nat -> str -> key;
  bind_ok : nat -> bool;
  hash : str -> key
}.

(** include/np_types.h np_state_s: what the address functions use of the context.
    [ifaces] are the entries of own interfaces in the order of the key cache, [others] all
    other entries.  [sockets] are the addresses with a listening socket. *)
Record ctx := Ctx {
  me : key;                      (* my_node_key *)
  me_id : key;                   (* my_identity *)
  main_ip : option str;
  running : bool;
  ifaces : list entry;
  others : list entry;
  sockets : list (Z * str * str);
  made : nat                     (* tokens created so far *)
}.

(** src/np_keycache.c: insertion into the red black tree ordered by key; an existing entry
    stays as it is (_np_keycache_find_or_create). *)
Fixpoint ins (x : entry) (l : list entry) : list entry :=
  match l with
  | [] => [x]
  | y :: l' => let c := np_dhkey_cmp (e_key x) (e_key y) in
               if c =? 0 then l else if c <? 0 then x :: l else y :: ins x l'
  end.

(** src/np_keycache.c:157-182 _np_keycache_find_interface (without port): the first entry
    whose address starts with the searched text. *)
Definition find_interface (c : ctx) (ip : str) : option entry :=
  find (fun e => flag (e_type e) key_type_interface &&
                 match e_node e with
                 | Some n => strneq (Nat.min (length ip) 46) (n_ip n) ip
                 | None => false
                 end) (ifaces c).

(** The same with context->main_ip, which may be NULL: strnlen(NULL) is undefined as soon as
    an interface with a node is looked at. *)
Definition find_main_interface (c : ctx) : outcome (option entry) :=
  match main_ip c with
  | Some ip => Ok (find_interface c ip)
  | None => if existsb (fun e => flag (e_type e) key_type_interface &&
                                 match e_node e with Some _ => true | None => false end)
                       (ifaces c)
            then UB else Ok None
  end.

(** include/neuropil.h:115-125 enum np_return *)
Definition np_ok : Z := 0.
Definition np_operation_failed : Z := 1.
Definition np_invalid_argument : Z := 5.
Definition np_invalid_operation : Z := 6.

(** src/np_legacy.c:450-541 _np_listen_safe and 378-394 _np_add_interface with
    src/core/np_comp_identity.c:134-246, 248-303 __np_set_identity, __np_create_identity_network.
    [UB]: the node of the token is NULL and its host_key is read.
    A failure to create the listening socket is not reported. *)
Definition listen_safe (E : env) (c : ctx) (protocol host port : str) : outcome (Z * ctx) :=
  let proto := parse_protocol protocol in
  if proto =? UNKNOWN_PROTO then Ok (np_invalid_argument, c)
  else
    match local_ip E (firstn 255 host) proto with
    | None => Ok (np_invalid_argument, c)
    | Some ip =>
      if match main_ip c with Some m => strneq 50 m ip | None => false end
      then Ok (np_ok, c)
      else
        let subject := handshake_subject proto ip port in
        match node_from_token subject (np_dhkey_str (me c)) with
        | None => UB
        | Some n =>
          let e := Entry (fp E (made c) subject)
                         (Z.lor key_type_node key_type_interface) (Some n) in
          let socks := if negb (flag (n_proto n) PASSIVE) && bind_ok E (made c)
                       then (n_proto n, n_ip n, n_port n) :: sockets c else sockets c in
          Ok (np_ok,
              Ctx (me c) (me_id c)
                  (match main_ip c with Some m => Some m | None => Some (firstn 50 ip) end)
                  (running c) (ins e (ifaces c)) (others c) socks (S (made c)))
        end
    end.

(** "%" PRIu16: decimal digits of a port number. *)
Fixpoint decimal_fuel (n : nat) (x : Z) : str :=
  match n with
  | O => []
  | S n' => if x <? 10 then [48 + x]
            else decimal_fuel n' (x / 10) ++ [48 + x mod 10]
  end.
Definition decimal (x : Z) : str := decimal_fuel 6 x.

(** src/neuropil.c:289-307 np_listen *)
Definition np_listen (E : env) (c : ctx) (protocol host : str) (port : Z) : outcome (Z * ctx) :=
  listen_safe E c (firstn 5 protocol) (firstn 255 host) (decimal port).

(** src/neuropil.c:997-1044 np_run: without an address the node listens on localhost, passive;
    a failure of this does not stop it.  Only the start is modelled. *)
Definition np_run (E : env) (c : ctx) : outcome (Z * ctx) :=
  obind (match main_ip c with
         | None => np_listen E c (protocol_string (Z.lor PASSIVE IPv4)) (lit "localhost") 31415
         | Some _ => Ok (np_ok, c)
         end)
        (fun r => let '(ret, c1) := r in
                  Ok (ret, Ctx (me c1) (me_id c1) (main_ip c1) true (ifaces c1) (others c1)
                               (sockets c1) (made c1))).

(** src/np_legacy.c:426-448 np_get_connection_string_from, with the hash. *)
Definition connection_string (n : node) : str :=
  build_connection_string (Some (n_key n)) (protocol_string (n_proto n)) (n_ip n) (n_port n).

(** src/neuropil.c:522-541 np_get_address: result and the first [max] bytes of the buffer,
    [None] when nothing is written. *)
Definition np_get_address (c : ctx) (max : nat) : outcome (Z * option (list Z)) :=
  obind (find_main_interface c) (fun r =>
  match r with
  | None => Ok (np_operation_failed, None)
  | Some e =>
    match e_node e with
    | None => UB
    | Some n =>
      let s := connection_string n in
      if Nat.ltb max (length s) then Ok (np_invalid_argument, None)
      else Ok (np_ok, Some (s ++ repeat 0 (max - length s)))
    end
  end).

(** src/np_network.c:1512-1515 _np_network_is_loopback_address *)
Definition is_loopback (ip : str) : bool :=
  strneq 9 ip (lit "127.0.0.1") || strneq 3 ip (lit "::1").

(** src/np_network.c:1517-1548 _np_network_is_private_address *)
Definition is_private (E : env) (ip : str) : bool :=
  match pton4 E ip with
  | Some a => ((167772160 <=? a) && (a <=? 184549375))
              || ((2886729728 <=? a) && (a <=? 2887778303))
              || ((3232235520 <=? a) && (a <=? 3232301055))
  | None =>
    match pton6 E ip with
    | Some b => (nth 0 b 0 =? 252) || (nth 0 b 0 =? 253)
                || ((nth 0 b 0 =? 254) && (nth 1 b 0 =? 128))
    | None => false
    end
  end.

(** __builtin_clz of a 32 bit number, undefined for 0. *)
Definition clz32 (x : Z) : option Z := if x =? 0 then None else Some (31 - Z.log2 x).

Fixpoint common_pairs (a b : list Z) : Z :=
  match a, b with
  | x1 :: x2 :: a', y1 :: y2 :: b' =>
      if (x1 =? y1) && (x2 =? y2) then 1 + common_pairs a' b' else 0
  | _, _ => 0
  end.

(** src/np_network.c:1403-1458 _np_network_count_common_tuples *)
Definition count_common_tuples (E : env) (rip lip : str) : outcome Z :=
  match strchr 58 rip, strchr 58 lip with
  | None, None =>
    match pton4 E rip, pton4 E lip with
    | Some r, Some n =>
        match clz32 (Z.lxor r n) with
        | Some k => Ok (Z.shiftr k 3)
        | None => UB
        end
    | _, _ => Ok 0
    end
  | Some _, Some _ =>
    match pton6 E rip, pton6 E lip with
    | Some r, Some n => Ok (common_pairs r n)
    | _, _ => Ok 0
    end
  | _, _ => Ok 0
  end.

(** src/np_glia.c:144-236 _np_glia_node_can_be_reached, without the returned interface. *)
Definition can_be_reached (E : env) (c : ctx) (rip : str) (proto : Z) : outcome bool :=
  let remote_private := is_private E rip in
  let remote_localhost := is_loopback rip in
  let lip := match outgoing_ip E rip proto with Some l => l | None => [] end in
  obind (match find_interface c lip with
         | Some e => Ok (e, false)
         | None => obind (find_main_interface c) (fun m =>
                   match m with Some e => Ok (e, true) | None => Abort end)
         end) (fun r =>
  let '(e, is_main) := r in
  match e_node e with
  | None => UB
  | Some n =>
    let local_private := is_private E (n_ip n) in
    let local_localhost := is_loopback (n_ip n) in
    if local_localhost && remote_localhost && flag proto (Z.land (n_proto n) MASK_IP)
    then Ok true
    else
      obind (if remote_private && local_private
             then obind (count_common_tuples E rip (n_ip n)) (fun k => Ok (0 <? k))
             else Ok false) (fun same =>
      if same then Ok true
      else if (remote_private && local_localhost) || (local_private && negb remote_private)
      then
        let want := Z.lor PASSIVE (Z.land MASK_IP proto) in
        if flag (n_proto n) want then Ok true
        else if local_private && negb is_main
        then obind (find_main_interface c) (fun m =>
             match m with
             | Some e' => match e_node e' with
                          | Some n' => Ok (flag (n_proto n') want)
                          | None => UB
                          end
             | None => UB
             end)
        else Ok false
      else Ok (negb remote_private && negb local_private))
  end).

(** src/np_keycache.c:184-232 _np_keycache_find_by_details, as np_send_join calls it: is there
    an entry (of exactly the type node or interface) whose address and port occur in the text? *)
Definition find_by_details (c : ctx) (details : str) : bool :=
  existsb (fun e =>
    negb (np_dhkey_equal (e_key e) (me c) || np_dhkey_equal (e_key e) (me_id c)) &&
    ((e_type e =? key_type_node) || (e_type e =? key_type_interface)) &&
    match e_node e with
    | Some n => strstr details (n_ip n) && strstr details (n_port n)
    | None => false
    end) (ifaces c ++ others c).

(** src/np_legacy.c:561-708 np_send_join.  The third component is the join that is started:
    the key of the new entry and the node it is given; [None] when the call ends without. *)
Definition send_join (E : env) (c : ctx) (s : str) : outcome (ctx * option (key * node)) :=
  obind (node_decode_from_str s) (fun d =>
  match d with
  | None => Ok (c, None)
  | Some n0 =>
    if flag (n_proto n0) PASSIVE then Ok (c, None)
    else
      let n := Node (n_key n0) (n_proto n0) (firstn 64 (remote_ip E (n_ip n0) (n_proto n0)))
                    (n_port n0) in
      let details := firstn 63 (n_ip n ++ lit ":" ++ n_port n) in
      if find_by_details c details then Ok (c, None)
      else
        obind (can_be_reached E c (n_ip n) (n_proto n)) (fun r1 =>
        obind (if r1 then Ok (Some (c, true))
               else match outgoing_ip E (n_ip n) (n_proto n) with
                    | None => Ok None
                    | Some lip =>
                      obind (listen_safe E c
                               (protocol_string (Z.lor (n_proto n) PASSIVE)) lip (lit "31415"))
                        (fun l => let '(ret, c1) := l in
                           if negb (ret =? np_ok) then Ok None
                           else obind (can_be_reached E c1 (n_ip n) (n_proto n))
                                      (fun r2 => Ok (Some (c1, r2))))
                    end) (fun r2 =>
        match r2 with
        | None => Ok (c, None)
        | Some (c1, false) => Ok (c1, None)
        | Some (c1, true) =>
          if match n_key n with x :: _ => x =? 42 | [] => false end
          then Ok (c1, Some (hash E (firstn 254 (lit "*:" ++
                     build_connection_string None (protocol_string (n_proto n)) (n_ip n) (n_port n))),
                     n))
          else if Nat.eqb (length (firstn 64 (n_key n))) 64
          then Ok (c1, Some (np_dhkey_create_from_hash (n_key n), n))
          else Ok (c1, None)
        end))
  end).

(** src/neuropil.c:607-624 np_join: the result does not depend on what np_send_join does. *)
Definition np_join (E : env) (c : ctx) (address : option str)
  : outcome (Z * ctx * option (key * node)) :=
  match address with
  | None => Ok (np_invalid_argument, c, None)
  | Some s =>
    if Nat.leb (length s) 10 then Ok (np_invalid_argument, c, None)
    else if Nat.leb 500 (length s) then Ok (np_invalid_argument, c, None)
    else if negb (running c) then Ok (np_invalid_operation, c, None)
    else obind (send_join E c s) (fun r => let '(c1, j) := r in Ok (np_ok, c1, j))
  end.

(** Calls of a program.  [Others es]: all that the rest of the library does to the entries of
    the key cache that are not own interfaces. *)
Inductive call :=
| Listen (protocol host : str) (port : Z)
| Run
| Join (address : option str)
| Others (es : list entry).

Definition step (E : env) (c : ctx) (k : call) : outcome ctx :=
  match k with
  | Listen p h o => obind (np_listen E c p h o) (fun r => Ok (snd r))
  | Run => obind (np_run E c) (fun r => Ok (snd r))
  | Join a => obind (np_join E c a) (fun r => Ok (snd (fst r)))
  | Others es => Ok (Ctx (me c) (me_id c) (main_ip c) (running c) (ifaces c)
                         (filter (fun e => negb (flag (e_type e) key_type_interface)) es)
                         (sockets c) (made c))
  end.

(** A new context: keys set up, not listening, not running. *)
Definition new_ctx (node_key ident_key : key) : ctx :=
  Ctx node_key ident_key None false [] [] [] 0.

Fixpoint run (E : env) (c : ctx) (h : list call) : outcome ctx :=
  match h with
  | [] => Ok c
  | k :: h' => obind (step E c k) (fun c1 => run E c1 h')
  end.
