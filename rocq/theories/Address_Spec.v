(** What a user knows about addresses, without the code. *)
From Coq Require Import String Ascii.
From Verif Require Import Base Dhkey_Model Address_Model.
From Coq Require Import List.
Open Scope Z_scope.
Open Scope list_scope.

Definition text (s : string) : list Z :=
  map (fun c => Z.of_N (N_of_ascii c)) (list_ascii_of_string s).

(** "fingerprint:protocol:host:port" *)
Definition address_text (fpr proto host port : list Z) : list Z :=
  fpr ++ [58] ++ proto ++ [58] ++ host ++ [58] ++ port.

Definition hex_char (c : Z) : Prop := 48 <= c <= 57 \/ 97 <= c <= 102 \/ 65 <= c <= 70.
(** 64 hexadecimal digits. *)
Definition fingerprint_text (s : list Z) : Prop := length s = 64%nat /\ Forall hex_char s.
(** Not the fingerprint that consists of zeros only. *)
Definition not_all_zero (s : list Z) : Prop := Exists (fun c => c <> 48) s.

(** The protocols, by name and by number. *)
Definition protocols : list (list Z * Z) :=
  [(text "tcp4", 34); (text "tcp6", 36); (text "pas4", 258);
   (text "pas6", 260); (text "udp4", 18); (text "udp6", 20)].
Definition active_protocols : list (list Z * Z) :=
  [(text "tcp4", 34); (text "tcp6", 36); (text "udp4", 18); (text "udp6", 20)].

(** Decimal number without leading zeros. *)
Definition digit_value (s : list Z) : Z := fold_left (fun acc c => 10 * acc + (c - 48)) s 0.
Definition decimal_text (s : list Z) (x : Z) : Prop :=
  digit_value s = x /\ Forall (fun c => 48 <= c <= 57) s /\ s <> [] /\
  (hd 0 s = 48 -> s = [48]).

Definition prefix_of (a b : list Z) : Prop := exists t, b = a ++ t.
Definition occurs_in (a b : list Z) : Prop := exists u v, b = u ++ a ++ v.

(** The operating system: addresses have a usual length. *)
Definition os_ok (E : env) : Prop :=
  forall host p ip, local_ip E host p = Some ip -> (length ip <= 40)%nat.

(** Is this the protocol named by a string (the code looks at four characters)? *)
Definition names (s : list Z) (p : Z) : Prop := In (firstn 4 s, p) protocols.

(** The call asks to listen at protocol [p], address [ip] of this machine and port [port]. *)
Definition asks (E : env) (k : call) (p : Z) (ip : list Z) (port : Z) : Prop :=
  match k with
  | Listen pr host o => names pr p /\ local_ip E (firstn 255 host) p = Some ip /\ o = port
  | Run => p = 258 /\ local_ip E (text "localhost") 258 = Some ip /\ port = 31415
  | _ => False
  end.

(** The first request of a program to listen that can be met: *)
Definition first_asked (E : env) (h : list call) (p : Z) (ip : list Z) (port : Z) : Prop :=
  exists h1 k h2, h = h1 ++ k :: h2 /\ asks E k p ip port /\
    forall k' p' ip' port', In k' h1 -> ~ asks E k' p' ip' port'.

(** Ports of a program fit into 16 bits (the type of the parameter). *)
Definition ports_ok (h : list call) : Prop :=
  forall pr host o, In (Listen pr host o) h -> 0 <= o < 65536.

(** IPv4 blocks for private use (RFC 1918), by the leading octets. *)
Definition octet1 (a : Z) : Z := a / 16777216.
Definition octet2 (a : Z) : Z := a / 65536 mod 256.
Definition private_block (a : Z) : option Z :=
  if octet1 a =? 10 then Some 10
  else if (octet1 a =? 172) && (16 <=? octet2 a) && (octet2 a <=? 31) then Some 172
  else if (octet1 a =? 192) && (octet2 a =? 168) then Some 192
  else None.

(** inet_pton(AF_INET) yields 32 bit numbers, only for texts without colon, and the texts that
    start with "127.0.0.1" lie in 127.0.0.0/8. *)
Definition inet_ok (E : env) : Prop :=
  forall s a, pton4 E s = Some a ->
    0 <= a < 4294967296 /\ ~ In 58 s /\ (prefix_of (text "127.0.0.1") s -> octet1 a = 127).

(** The interface the operating system would use towards [rip] is known: its node is [n], and
    no other interface has an address that starts with the same text. *)
Definition outgoing_node (E : env) (c : ctx) (rip : list Z) (p : Z) (n : node) : Prop :=
  outgoing_ip E rip p = Some (n_ip n) /\ (length (n_ip n) <= 46)%nat /\
  (exists e, In e (ifaces c) /\ e_type e = 36 /\ e_node e = Some n) /\
  (forall e n', In e (ifaces c) -> e_node e = Some n' -> prefix_of (n_ip n) (n_ip n') -> n' = n).

(** The same for the main interface. *)
Definition main_node (c : ctx) (n : node) : Prop :=
  main_ip c = Some (n_ip n) /\ (length (n_ip n) <= 46)%nat /\
  (exists e, In e (ifaces c) /\ e_type e = 36 /\ e_node e = Some n) /\
  (forall e n', In e (ifaces c) -> e_node e = Some n' -> prefix_of (n_ip n) (n_ip n') -> n' = n).

(** The node whose address is compared with [rip]: the interface the operating system would use,
    or the main one if that is none of ours. *)
Definition chosen_node (E : env) (c : ctx) (rip : list Z) (p : Z) (n : node) : Prop :=
  outgoing_node E c rip p n \/
  main_node c n /\ exists ip, outgoing_ip E rip p = Some ip /\ (length ip <= 46)%nat /\
    forall e n', In e (ifaces c) -> e_node e = Some n' -> ~ prefix_of ip (n_ip n').

(** inet_pton(AF_INET6) yields 16 bytes, only for texts with a colon; what starts with "::1" has a
    first byte 0. *)
Definition inet6_ok (E : env) : Prop :=
  forall s b, pton6 E s = Some b ->
    length b = 16%nat /\ In 58 s /\ (prefix_of (text "::1") s -> nth 0 b 0 = 0) /\
    ~ prefix_of (text "127.0.0.1") s.

(** What a text stands for: the number of an IPv4 address or the bytes of an IPv6 address. *)
Inductive address := V4 (a : Z) | V6 (b : list Z).
Definition reads (E : env) (s : list Z) (a : address) : Prop :=
  match a with
  | V4 x => pton4 E s = Some x
  | V6 b => pton4 E s = None /\ pton6 E s = Some b
  end.

(** The private network an address belongs to: one of the blocks of RFC 1918; for the unique local
    addresses fc00::/7 and the link local ones fe80::/16 all with the same first group. *)
Inductive net := Block (n : Z) | Group (x y : Z).
Definition private_net (a : address) : option net :=
  match a with
  | V4 x => match private_block x with Some b => Some (Block b) | None => None end
  | V6 b => let x := nth 0 b 0 in let y := nth 1 b 0 in
            if (x =? 252) || (x =? 253) || (x =? 254) && (y =? 128) then Some (Group x y) else None
  end.
Definition loopback_text (s : list Z) : Prop :=
  prefix_of (text "127.0.0.1") s \/ prefix_of (text "::1") s.

(** The entry is a node (not: interface, identity, ...) with this address and port. *)
Definition is_node_at (e : entry) (ip port : list Z) : Prop :=
  e_type e = 4 /\ exists n, e_node e = Some n /\ n_ip n = ip /\ n_port n = port.

(** The part of an address before the first colon names a node. *)
Definition pinned (fpr : list Z) : Prop :=
  fingerprint_text (firstn 64 fpr) /\ not_all_zero (firstn 64 fpr).

(** No node known to the library has an address and a port that both occur in "ip:port" (the
    first 63 characters). *)
Definition no_lookalike (c : ctx) (ip port : list Z) : Prop :=
  forall e n, In e (ifaces c ++ others c) -> e_type e = 4 \/ e_type e = 32 -> e_node e = Some n ->
    ~ (occurs_in (n_ip n) (firstn 63 (ip ++ text ":" ++ port)) /\
       occurs_in (n_port n) (firstn 63 (ip ++ text ":" ++ port))).

(** inet_pton(AF_INET): four decimal numbers up to 255, used for concrete cases. *)
Fixpoint dotted (s : list Z) (k : nat) (cur : option Z) (acc : Z) : option Z :=
  match s with
  | [] => match cur, k with Some v, 3%nat => Some (256 * acc + v) | _, _ => None end
  | c :: s' =>
    if c =? 46 then
      match cur with
      | Some v => if Nat.ltb k 3 then dotted s' (S k) None (256 * acc + v) else None
      | None => None
      end
    else if (48 <=? c) && (c <=? 57) then
      match cur with
      | None => dotted s' k (Some (c - 48)) acc
      | Some 0 => None
      | Some v => if 10 * v + (c - 48) <=? 255 then dotted s' k (Some (10 * v + (c - 48))) acc
                  else None
      end
    else None
  end.
Definition ipv4_text (s : list Z) : option Z := dotted s 0 None 0.
