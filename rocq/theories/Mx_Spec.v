(** What a user of the settings of a data channel expects (no reference to how they are stored). *)
From Verif Require Import Base Mx_Model.

(** values for which the structure is meant; durations are at least one second and whole seconds where they are counted so *)
Record legal (p : props) : Prop := {
  l_role : p_role p = 0 \/ p_role p = 1 \/ p_role p = 2;
  l_ack : p_ack p = 0 \/ p_ack p = 1 \/ p_ack p = 2;
  l_pol : p_policy p = 0 \/ p_policy p = 1 \/ p_policy p = 2 \/ p_policy p = 3;
  l_cache : 0 <= p_cache p < 65536;
  l_par : 0 <= p_par p < 256;
  l_retry : 0 <= p_retry p < 256;
  l_ittl : 0 <= p_ittl p < 4294967296 * 1000000 /\ p_ittl p mod 1000000 = 0;
  l_iupd : 0 <= p_iupd p < 4294967296 * 1000000 /\ p_iupd p mod 1000000 = 0;
  l_mttl : 0 <= p_mttl p;
  l_reply : p_reply p = repeat 0 32;
  l_aud : p_aud_type p = 2 -> p_aud_id p <> repeat 0 32 }.

(** a number that is zero means: leave as it is *)
Definition keep (new old : Z) : Z := if new =? 0 then old else new.

(** a channel nobody has configured yet *)
Definition defaults (role : Z) : props :=
  mkProps role 0 (repeat 0 32) 0 (repeat 0 32) 1 16 2 3 (180 * 1000000) (3 * 1000000) 19739208.

(** what is expected to be read after [p] was set where [old] was valid; audience aside *)
Definition merged (p old q : props) : Prop :=
  p_role q = p_role p /\ p_ack q = p_ack p /\ p_policy q = p_policy p /\
  p_cache q = keep (p_cache p) (p_cache old) /\ p_par q = keep (p_par p) (p_par old) /\
  p_retry q = keep (p_retry p) (p_retry old) /\ p_ittl q = keep (p_ittl p) (p_ittl old) /\
  p_iupd q = keep (p_iupd p) (3 * 1000000) /\ p_mttl q = keep (p_mttl p) (p_mttl old).

(** the channel receives / sends *)
Definition receiving (s : st) : Prop := rx s <> None.
Definition consumes (p : props) : Prop := p_role p = 1 \/ p_role p = 2.
Definition provides (p : props) : Prop := p_role p = 0 \/ p_role p = 2.

(** the settings a message is sent with / received with *)
Definition sent_with (s : st) (c : conf) : Prop := exists o h, tx s = Some (o, h) /\ nth_error (objs s) o = Some c.
Definition received_with (s : st) (c : conf) : Prop := exists o h, rx s = Some (o, h) /\ nth_error (objs s) o = Some c.

(** the numbers in an object are those of [p] (for [p] without zeros) *)
Definition carries (c : conf) (p : props) : Prop :=
  c_ack c = (if p_ack p =? 1 then 2 else if p_ack p =? 2 then 4 else 1) /\
  c_policy c = nth (Z.to_nat (p_policy p)) [17; 33; 18; 34] 0 /\
  c_cache c = p_cache p /\ c_thr c = p_par p /\ c_retry c = p_retry p /\ c_mttl c = p_mttl p /\
  c_max c = p_ittl p / 1000000 /\ c_min c = p_iupd p / 1000000 /\
  c_aud_type c = p_aud_type p /\ c_aud_id c = p_aud_id p.
Definition no_zero (p : props) : Prop :=
  0 < p_cache p /\ 0 < p_par p /\ 0 < p_retry p /\ 0 < p_ittl p /\ 0 < p_iupd p /\ 0 < p_mttl p.

(** calls that use legal settings *)
Definition legal_call (c : call) : Prop := match c with Set_ p => legal p | _ => True end.
Definition use_call (c : call) : Prop := c = Send \/ c = Listen.
