(** What a user expects of the sockets, in terms of packets queued, the
    operating system's answers, and packets handed on. *)
From Coq Require Import List ZArith Lia Bool.
From Verif Require Import Base Net_Model.
Import ListNotations.
Open Scope nat_scope.

(** A packet as the node builds it: 1046 bytes. *)
Definition packet (p : list byte) : Prop := length p = 1046.

(** The answers of the operating system move [n] bytes before the first
    refusal. *)
Fixpoint covers (n : nat) (answers : list nat) : bool :=
  match answers with
  | [] => false
  | a :: r => if a =? 0 then false else if n <=? a then true else covers (n - a) r
  end.

(** They move nothing at all. *)
Definition refused (answers : list nat) : bool :=
  match answers with [] => true | a :: _ => a =? 0 end.

(** The event moves a whole packet or nothing: it is not interrupted inside a
    packet. *)
Definition uncut (e : tcp_event) : Prop :=
  match e with
  | Queue p => packet p
  | Writable _ a | Readable _ a => covers 1046 a = true \/ refused a = true
  end.

(** The receiver is below its limit of packets per second. *)
Definition below (max : Z) (e : tcp_event) : Prop :=
  match e with Readable load _ => (load <= max)%Z | _ => True end.

(** The packets given to the connection, in order. *)
Fixpoint queued (es : list tcp_event) : list (list byte) :=
  match es with
  | [] => []
  | Queue p :: r => p :: queued r
  | _ :: r => queued r
  end.

(** [ps] cut into packets again from byte [k] on: the end of each with the
    beginning of the next one. *)
Fixpoint shifted (k : nat) (ps : list (list byte)) : list (list byte) :=
  match ps with
  | p :: ((q :: _) as r) => (skipn k p ++ firstn k q) :: shifted k r
  | _ => []
  end.

(** A connection whose sender has put the packets [ps] on the wire and has
    nothing more to send. *)
Definition sent_all (ps : list (list byte)) : tcp := mkTcp [] (concat ps) [].

(** Reading [n] times with everything ready. *)
Definition reads (n : nat) : list tcp_event := repeat (Readable 0 [1046]) n.

(** Packets that are easy to tell apart: the i-th is the byte i, 1046 times. *)
Definition plain (n : nat) : list (list byte) :=
  map (fun m => repeat (Z.of_nat m) 1046) (seq 0 n).

(** ** UDP *)

(** The socket is listening: its callback will be called. *)
Definition listening (s : udp) : Prop := s_rd (u_sock s) = true.

(** The packets handed on, with the address each is attributed to. *)
Definition received (s : udp) : list (addr * list byte) :=
  map (fun j => (snd (fst j), snd j)) (u_jobs s).

(** Datagrams of at least a packet's size (the rest of a longer one is cut
    off by the operating system). *)
Definition full (d : list byte) : Prop := 1046 <= length d.

(** The events of ordinary operation: full datagrams come in, the socket is
    read below the limit, somebody starts it again. *)
Definition ordinary (max : Z) (e : udp_event) : Prop :=
  match e with
  | Arrive _ d => full d
  | ReadIt load _ => (load <= max)%Z
  | Start | EnableIt => True
  | Stop | DisableIt => False
  end.

(** The datagrams that came in, cut to a packet. *)
Fixpoint arrived (es : list udp_event) : list (addr * list byte) :=
  match es with
  | [] => []
  | Arrive a d :: r => (a, firstn 1046 d) :: arrived r
  | _ :: r => arrived r
  end.

(** Nobody re-creates or enables the socket. *)
Definition not_enabled (e : udp_event) : Prop :=
  match e with EnableIt => False | _ => True end.

(** An event caused by somebody else: a datagram comes in, and is read. *)
Definition foreign (e : udp_event) : Prop :=
  match e with Arrive _ _ | ReadIt _ _ => True | _ => False end.
