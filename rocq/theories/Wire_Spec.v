(** What travels: bytes, header fields, and the law of the cipher. *)
From Verif Require Import Base Dhkey_Model Message_Model Wire_Model.

Definition bytes (n : nat) (l : list Z) : Prop := length l = n /\ Forall (fun b => 0 <= b < 256) l.
(** header fields in the range of their C types (the number of parts is filled in by the code) *)
Definition fields_ok (f : fields) : Prop :=
  wf_key (f_subject f) /\ wf_key (f_audience f) /\ bytes 16 (f_uuid f) /\ bytes 8 (f_tstamp f) /\ 0 <= f_ttl f < 4294967296 /\ 0 <= f_flags f < 65536.
(** an authenticated cipher: what was sealed for a nonce and a header is opened with the same nonce, header and mac *)
Definition cipher (seal : list Z -> list Z -> list Z -> list Z * list Z) (unseal : list Z -> list Z -> list Z -> list Z -> option (list Z)) : Prop :=
  forall nonce h p, let '(mac, c) := seal nonce h p in bytes 16 mac /\ length c = length p /\ unseal nonce h mac c = Some p.
(** the packets of a message, whatever their instructions *)
Definition instructions := nat -> list Z * Z * Z.
Definition packets (b : list Z) (n : nat) (ins : instructions) : list (list Z) :=
  map (fun i => let '(mac_n, seq_no, hop) := ins i in build_packet b i mac_n seq_no hop) (seq 0 n).
(** the number in the first two bytes of the mac: packets count from it *)
Definition first_number (b : list Z) : Z := nth 12 b 0 + 256 * nth 13 b 0.
Definition with_parts (f : fields) (n : Z) : fields := mkF (f_subject f) (f_audience f) (f_uuid f) (f_tstamp f) (f_ttl f) n (f_flags f).
(** what a receiver makes of a list of datagrams: the memory of the message, once all have come *)
Definition received (order : list (list Z)) (b : list Z) : Prop :=
  exists fuel s m, receive_all fuel None (map parse_packet order) = Ok (Some s) /\ reported_complete (Some s) = true /\
    deserialize_chunks s = Ok (Some m) /\ joined m = b.
