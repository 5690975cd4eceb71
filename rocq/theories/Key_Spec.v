(** What a user relies on when a key handles events; see Key_Props. *)
From Verif Require Import Base Statemachine_Model Key_Model.

(** The user's authenticate callback was asked about a token and said yes, and key [d] is one of the two the
    answer is for: the connection on which the token was received, or the node the token belongs to (for an identity
    token: the node it names as its partner). *)
Definition accepted (tr : list obs) (d : Z) : Prop :=
  exists i n e k, In (Asked i n e true) tr /\ e_data e = PToken k /\
    (d = e_target e \/ d = if flag (tk_type k) aaatoken_node then tk_fingerprint k else tk_partner k).

(** Handing the content of a received message to the rest of the program: user messages, pheromones, discovery and
    forwarding; and network messages other than join and leave. *)
Definition processes (a : action) (e : event) : bool :=
  match a with
  | A_handle_usr_msg | A_handle_pheromone | A_handle_np_discovery | A_handle_np_forward => true
  | A_handle_np_message => negb (subject_in (e_data e) [S_join; S_leave])
  | _ => false
  end.

(** Everything a connection does with incoming data, including decryption and join. *)
Definition receives (a : action) : bool :=
  match a with
  | A_handle_usr_msg | A_handle_pheromone | A_handle_np_discovery | A_handle_np_forward
  | A_handle_np_message | A_alias_decrypt => true
  | _ => false
  end.

(** Key object [i] was removed; its connection was shut down. *)
Definition destroyed (tr : list obs) (i : nat) : Prop := exists n d e, In (Ran i n d A_key_destroy e) tr.
Definition disconnected (tr : list obs) (i : nat) : Prop := exists n d e, In (Ran i n d A_alias_shutdown e) tr.

(** Requests to disable and enable a subject. *)
Definition disables (e : event) : Prop :=
  flag (e_type e) evt_disable = true /\ flag (e_type e) evt_enable = false.
Definition enables (e : event) : Prop := flag (e_type e) evt_enable = true.
