(** What users of a channel rely on, in plain terms. *)
From Coq Require Import String.
From Verif Require Import Base Mx_Model Chain_Model.
Open Scope list_scope.
Open Scope Z_scope.

(** the text of a subject id: 64 digits 0-9, a-f *)
Definition subject_text (s : list Z) : Prop := List.length s = 64%nat /\ Forall (fun c => 48 <= c <= 57 \/ 97 <= c <= 102) s.

(** the settings are accepted, the application receives with them, the channel is not virtual *)
Definition accepted (p : props) : Prop := ~ (p_aud_type p = 2 /\ p_aud_id p = repeat 0 32).
Definition receives (p : props) : Prop := p_role p <> 0.
Definition sends (p : props) : Prop := p_role p <> 1.
Definition virtual (p : props) : Prop := p_aud_type p = 1.
Definition no_virtual (h : list event) : Prop := forall p, In (Call (Set_ p)) h -> ~ virtual p.
(** no settings, no callback so far *)
Definition unconcerned (e : event) : Prop := match e with Call (Set_ _) | Call Listen => False | _ => True end.
Definition no_settings (e : event) : Prop := match e with Call (Set_ _) => False | _ => True end.
(** all later settings want the same acknowledgements *)
Definition same_ack (a : Z) (e : event) : Prop := match e with Call (Set_ p) => p_ack p = a | _ => True end.

(** every message given to the application was opened before, every message sent was encrypted before *)
Definition opened_first (t : list effect) : Prop := forall a u i b, t = a ++ Given u i :: b -> In (Opened u) a.
Definition sealed_first (t : list effect) : Prop := forall a u b, t = a ++ Sent u :: b -> In (Sealed u) a.

(** the messages with this uuid that came in *)
Definition came (u : Z) (h : list event) : Prop := exists m, In (Arrive m) h /\ i_uuid m = u.

(** what the subjects of the node itself are for: handlers for receiving and for sending *)
Definition own_handlers : list (string * list handler * list handler) :=
  [("_NP.DEFAULT", [], [out_default]);
   ("_NP.FORWARD", [], [out_forward]);
   ("_NP.HANDSHAKE", [in_handshake], [out_handshake]);
   ("_NP.ACK", [in_ack], [out_ack]);
   ("_NP.JOIN.REQUEST", [in_join], [out_join]);
   ("_NP.LEAVE.REQUEST", [in_leave], [out_leave]);
   ("_NP.PING.REQUEST", [check_and_send_destination_ack; in_ping], [out_ping]);
   ("_NP.NODES.PIGGY", [in_piggy], [out_piggy]);
   ("_NP.NODES.UPDATE", [in_update], [out_update]);
   ("_NP.MESSAGE.RECEIVER.TOKEN", [in_available_receiver], [out_available_messages]);
   ("_NP.MESSAGE.SENDER.TOKEN", [in_available_sender], [out_available_messages]);
   ("_NP.PHEROMONE.UPDATE", [in_pheromone], [out_pheromone])]%string.
