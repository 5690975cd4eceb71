(** A message on its way through many nodes.  Every node that gets a part of a message for another audience passes it on
    (src/core/np_comp_alias.c:737-773 __is_forward_message, 1146-1207 __np_handle_np_forward; receivers of the subject do so as well,
    1211-1224 __np_handle_usr_msg); the filter of parts seen before (40-72) is asked only before a message is handed to the node itself (960).
    [forward] is the function of one node (Out_Model).
    Simplified: a message of one part; the tables of the nodes do not change while it travels; no packet is lost or doubled. *)
From Verif Require Import Base Dhkey_Model Pheromone_Model Data_Model Out_Model.

(** a packet under way *)
Record parcel := mkP { p_to : key; p_from : key; p_msg : message }.
Definition net := key -> option world.

Section Net.
  Variables (n : net) (bucket : key -> Z) (ack : key).
  (** a node gets a packet: the packets it sends on *)
  Definition receive (p : parcel) : list parcel :=
    match n (p_to p) with
    | None => []
    | Some w =>
      match forward 0 w ack (p_from p) (p_msg p) (bucket (p_to p)) with
      | Done (_, cs) => map (fun c => mkP (c_hop c) (p_to p) (c_message c)) cs
      | _ => []
      end
    end.
  (** the [i]-th packet under way arrives; [late]: the message is expired (np_comp_alias.c:671-679 __is_msgpart_expired) and dropped.
      The packets under way and those that have arrived. *)
  Definition arrive (i : nat) (late : bool) (st : list parcel * list parcel) : list parcel * list parcel :=
    let '(way, log) := st in
    match nth_error way i with
    | None => st
    | Some p => (firstn i way ++ skipn (S i) way ++ (if late then [] else receive p), p :: log)
    end.
  Fixpoint travel (sched : list (nat * bool)) (st : list parcel * list parcel) : list parcel * list parcel :=
    match sched with [] => st | (i, late) :: r => travel r (arrive i late st) end.
  (** the message leaves the node [k]: _np_out_default (np_axon.c:357-404) *)
  Definition leave (k : key) (m : message) : list parcel :=
    match n k with
    | None => []
    | Some w => match out_default w m with Done (_, cs) => map (fun c => mkP (c_hop c) k (c_message c)) cs | _ => [] end
    end.
End Net.
