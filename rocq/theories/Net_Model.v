(** Sockets: how packets are put on and taken from the operating system's
    sockets (src/np_network.c).

    Bytes are integers; a packet is a list of bytes, 1046 of them when it was
    built by the node (Wire_Model).  The answers of the operating system to
    send and recv are inputs of the model: they are all that segmentation,
    back pressure and timing can do to the code.  Locks (access_lock), the
    event loops, statistics and logging are left out: every callback of one
    socket runs in its own event loop, one after the other. *)
From Coq Require Import List ZArith Lia Bool.
From Verif Require Import Base.
Import ListNotations.
Open Scope nat_scope.

Notation byte := Z (only parsing).
Notation addr := Z (only parsing).

(** include/np_settings.h:169-173: MSG_CHUNK_SIZE_1024 + MSG_INSTRUCTIONS_SIZE,
    the size of every packet on the wire. *)
Definition PACKET : nat := 1046.

(** ** Sending *)

(** What the operating system answers to one send(2)/sendto(2): it takes at
    most what was asked.  [0] stands for every refusal (the result is 0 or
    -1: both leave the loop in the code). *)
Definition kernel_send (asked answer : nat) : nat := Nat.min asked answer.

(** src/np_network.c:321-356, the do-while loop of _np_network_send_data.
    [w] is write_per_data, [wire] what the peer's side will be able to read.
    A list of answers that runs out is a refusal. *)
Fixpoint send_loop (pkt : list byte) (w : nat) (wire : list byte)
  (answers : list nat) : nat * list byte :=
  match answers with
  | [] => (w, wire)
  | a :: answers' =>
      let n := kernel_send (PACKET - w) a in
      if (0 <? n) && (n <=? PACKET)
      then let w' := w + n in
           let wire' := wire ++ firstn n (skipn w pkt) in
           if w' <? PACKET then send_loop pkt w' wire' answers' else (w', wire')
      else (w, wire)
  end.

(** src/np_network.c:272-385, _np_network_send_data.  [load] is
    current_load_capacity (the counting filter's answer for the target, 0 when
    no limit is set, Bloom_Model), [max] the limit of packets per second. *)
Definition send_data (load max : Z) (pkt wire : list byte)
  (answers : list nat) : bool * list byte :=
  if (max <? load)%Z then (false, wire)
  else let '(w, wire') := send_loop pkt 0 wire answers in
       (w =? PACKET, wire').

(** src/np_network.c:387-434, _np_network_write: the head of the queue is
    taken off only when all of it was sent.  (The watcher's stop on an empty
    queue is in [sock], below.) *)
Definition write (load max : Z) (answers : list nat)
  (queue : list (list byte)) (wire : list byte) : list (list byte) * list byte :=
  match queue with
  | [] => ([], wire)
  | p :: queue' =>
      let '(ok, wire') := send_data load max p wire answers in
      (if ok then queue' else queue, wire')
  end.

(** ** Receiving *)

(** What one read event leaves behind: nothing (recv failed: the local buffer
    is given back, lines 643-651 and 850), or the bytes collected when the loop
    ended (lines 653-661). *)
Inductive collected :=
| Failed
| Got (buf : list byte).

(** src/np_network.c:626-661 for TCP.  [pending] are the bytes of the stream
    not yet read.  An answer says how many bytes are ready at that recv;
    recv gives at most what was asked and what there is.  With nothing ready
    recv fails (EAGAIN: the sockets are non-blocking, lines 1034-1039, 1171 and
    1333), or returns 0 when the peer has closed the connection
    and everything was read.  [buf] is the buffer filled so far: it is local
    to the call. *)
Fixpoint recv_loop (closed : bool) (buf pending : list byte)
  (answers : list nat) : collected * list byte :=
  match answers with
  | [] => if closed && (length pending =? 0) then (Got buf, pending)
          else (Failed, pending)
  | a :: answers' =>
      let n := Nat.min (PACKET - length buf) (Nat.min a (length pending)) in
      if n =? 0
      then if closed && (length pending =? 0) then (Got buf, pending)
           else (Failed, pending)
      else let buf' := buf ++ firstn n pending in
           let pending' := skipn n pending in
           if length buf' <? PACKET
           then recv_loop closed buf' pending' answers'
           else (Got buf', pending')
  end.

(** src/np_network.c:626-661 for UDP: every recvfrom takes one datagram off
    the socket; what does not fit into the rest of the buffer is lost, and the
    sender's address is overwritten by each datagram.  With no datagram there
    recvfrom fails. *)
Fixpoint recvfrom_loop (buf : list byte) (from : addr)
  (waiting : list (addr * list byte))
  : collected * addr * list (addr * list byte) :=
  match waiting with
  | [] => (Failed, from, [])
  | (a, d) :: waiting' =>
      let got := firstn (PACKET - length buf) d in
      if length got =? 0 then (Got buf, a, waiting')
      else let buf' := buf ++ got in
           if length buf' <? PACKET then recvfrom_loop buf' a waiting'
           else (Got buf', a, waiting')
  end.

(** ** What becomes of the bytes *)

(** src/np_network.c:663-848: the outcome of a read event. *)
Inductive verdict :=
| Nothing
| Packet (from : addr) (data : list byte)
| Disable.

(** Lines 663, 690, 706-715, 833-846. *)
Definition judge (c : collected) (from : addr) (load max : Z) : verdict :=
  match c with
  | Failed => Nothing
  | Got buf =>
      if length buf =? PACKET
      then if (max <? load)%Z then Nothing else Packet from buf
      else if length buf =? 0 then Disable else Nothing
  end.

(** Lines 772-803: whose job the packet becomes.  [status from] is the
    handshake state of the alias known for that address (0, disconnected, when
    there is none: np_node_status_Disconnected 0, Initiated 1;
    include/np_node.h:28-29), [passive] the socket's PASSIVE flag. *)
Inductive target := ToOwner | ToAlias.

Definition route_to (passive : bool) (status : Z) : target :=
  if passive || (status <? 1)%Z then ToOwner else ToAlias.

(** ** The switches of a socket *)

(** include/np_network.h:64-90, np_network_t: can_be_enabled, is_running (bit 1 the
    reading side, bit 2 the writing side) and type (bit 1 server, bit 2
    client). *)
Record sock := mkSock {
  s_can  : bool;
  s_rd   : bool;       (* is_running & np_network_server_started *)
  s_wr   : bool;       (* is_running & np_network_client_started *)
  s_srv  : bool;       (* type & np_network_type_server *)
  s_cli  : bool        (* type & np_network_type_client *)
}.

(** src/np_network.c:900-944, _np_network_start: only if it can be enabled;
    the side is marked as running when its watcher is started. *)
Definition start (s : sock) : sock :=
  if s_can s
  then mkSock (s_can s) (s_rd s || s_srv s) (s_wr s || s_cli s) (s_srv s) (s_cli s)
  else s.

(** src/np_network.c:857-898, _np_network_stop. *)
Definition stop (s : sock) : sock :=
  mkSock (s_can s)
    (if s_rd s && s_srv s then false else s_rd s)
    (if s_wr s && s_cli s then false else s_wr s)
    (s_srv s) (s_cli s).

(** src/np_network.c:1664-1669, _np_network_disable. *)
Definition disable (s : sock) : sock :=
  stop (mkSock false (s_rd s) (s_wr s) (s_srv s) (s_cli s)).

(** src/np_network.c:1671-1676, _np_network_enable. *)
Definition enable (s : sock) : sock :=
  start (mkSock true (s_rd s) (s_wr s) (s_srv s) (s_cli s)).

(** src/np_network.c:421-432: after a write with an empty queue the writing
    side is stopped. *)
Definition drained (s : sock) : sock :=
  mkSock (s_can s) (s_rd s) false (s_srv s) (s_cli s).

(** ** A TCP connection: one sender, one receiver *)

Record tcp := mkTcp {
  t_queue   : list (list byte);   (* out_events of the sender *)
  t_wire    : list byte;          (* sent and not yet read *)
  t_got     : list (list byte)    (* packets handed on by the receiver *)
}.

(** An event of the connection: a packet is queued (src/core/np_comp_node.c:1559-1570
    and 1700-1705, sll_append to out_events), the sender's socket is writable,
    the receiver's socket is readable. *)
Inductive tcp_event :=
| Queue (p : list byte)
| Writable (load : Z) (answers : list nat)
| Readable (load : Z) (answers : list nat).

(** [max] the limit of both nodes. *)
Definition tcp_step (max : Z) (s : tcp) (e : tcp_event) : tcp :=
  match e with
  | Queue p => mkTcp (t_queue s ++ [p]) (t_wire s) (t_got s)
  | Writable load answers =>
      let '(q, w) := write load max answers (t_queue s) (t_wire s) in
      mkTcp q w (t_got s)
  | Readable load answers =>
      let '(c, w) := recv_loop false [] (t_wire s) answers in
      mkTcp (t_queue s) w
        (match judge c 0%Z load max with
         | Packet _ d => t_got s ++ [d]
         | _ => t_got s
         end)
  end.

Definition tcp_run (max : Z) (s : tcp) (es : list tcp_event) : tcp :=
  fold_left (tcp_step max) es s.

Definition tcp0 : tcp := mkTcp [] [] [].

(** ** A listening UDP socket *)

Record udp := mkUdp {
  u_sock    : sock;
  u_waiting : list (addr * list byte);            (* datagrams not yet read *)
  u_jobs    : list (target * addr * list byte)    (* packets handed on *)
}.

(** A datagram comes in (from anybody); the socket is readable - the event
    loop calls back only while the watcher is started; some part of the node
    asks to start, stop, disable or enable the socket. *)
Inductive udp_event :=
| Arrive (from : addr) (d : list byte)
| ReadIt (load : Z) (status : addr -> Z)
| Start | Stop | DisableIt | EnableIt.

(** src/np_network.c:592-855 as called by libev for the listening socket;
    src/core/np_comp_identity.c:280-296 creates it with
    _np_network_init(create_server = true) and _np_network_enable. *)
Definition udp_step (max : Z) (s : udp) (e : udp_event) : udp :=
  match e with
  | Arrive from d => mkUdp (u_sock s) (u_waiting s ++ [(from, d)]) (u_jobs s)
  | ReadIt load status =>
      if s_rd (u_sock s) then
        match u_waiting s with
        | [] => s
        | _ =>
            let '(c, from, w) := recvfrom_loop [] 0%Z (u_waiting s) in
            match judge c from load max with
            | Nothing => mkUdp (u_sock s) w (u_jobs s)
            | Packet a d =>
                mkUdp (u_sock s) w
                  (u_jobs s ++ [(route_to false (status a), a, d)])
            | Disable => mkUdp (disable (u_sock s)) w (u_jobs s)
            end
        end
      else s
  | Start => mkUdp (start (u_sock s)) (u_waiting s) (u_jobs s)
  | Stop => mkUdp (stop (u_sock s)) (u_waiting s) (u_jobs s)
  | DisableIt => mkUdp (disable (u_sock s)) (u_waiting s) (u_jobs s)
  | EnableIt => mkUdp (enable (u_sock s)) (u_waiting s) (u_jobs s)
  end.

Definition udp_run (max : Z) (s : udp) (es : list udp_event) : udp :=
  fold_left (udp_step max) es s.

(** A listening socket as src/core/np_comp_identity.c:270-296 leaves it
    (can_be_enabled is true from the start: src/np_network.c:1018). *)
Definition udp0 : udp := mkUdp (enable (mkSock true false false true false)) [] [].
