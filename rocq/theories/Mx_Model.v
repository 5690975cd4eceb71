(** Settings of one data channel: src/neuropil.c (np_set_mx_properties, np_get_mx_properties, np_mx_properties_enable,
    np_mx_properties_disable, np_send_to up to the event), src/np_legacy.c (np_add_receive_listener),
    src/core/np_comp_msgproperty.c (defaults, conf_get, get_or_create, register, 4user, from_user, set, update),
    src/np_key.c (states IN_USE_MSGPROPERTY and ON_HOLD_MSGPROPERTY).
    The settings of a subject live in heap objects; the receiving key and the sending key of the subject each point to one of
    them.  Times of type double are in microseconds.  The copied reply text is a heap string that can be freed.
    Not modelled: reference counts, the other subjects (their keys are different: C21), allocation failure, NaN. *)
From Verif Require Import Base.

(** include/neuropil.h:292-311 struct np_mx_properties (enums by number: role PROVIDER 0, CONSUMER 1, PROSUMER 2; ack mode
    NONE 0, DESTINATION 1, CLIENT 2; policy FIFO_REJECT 0, FIFO_PURGE 1, LIFO_REJECT 2, LIFO_PURGE 3; audience PUBLIC 0,
    VIRTUAL 1, PROTECTED 2, PRIVATE 3: neuropil.h:268-290) *)
Record props := mkProps {
  p_role : Z; p_ack : Z; p_reply : list Z; p_aud_type : Z; p_aud_id : list Z; p_policy : Z; p_cache : Z; p_par : Z; p_retry : Z;
  p_ittl : Z; p_iupd : Z; p_mttl : Z }.

(** include/core/np_comp_msgproperty.h:308-355 struct np_msgproperty_conf_s (without priority, is_internal and the hashes of the
    subject, which these functions do not change) *)
Record conf := mkConf {
  c_rep : option nat; c_mode : Z; c_mep : Z; c_ack : Z; c_mttl : Z; c_retry : Z; c_max : Z; c_min : Z; c_policy : Z; c_cache : Z;
  c_thr : Z; c_unique : bool; c_aud_type : Z; c_aud_id : list Z; c_reply : list Z }.

Definition zero_id : list Z := repeat 0 32.
(** include/core/np_comp_msgproperty.h:93-95, 252-255, 282-285; include/np_settings.h:118-127 *)
Definition INBOUND := 1.
Definition OUTBOUND := 2.
Definition DEFAULT_MODE := 3.
Definition FIFO := 1.
Definition LIFO := 2.
Definition OVERFLOW_REJECT := 16.
Definition OVERFLOW_PURGE := 32.
Definition flag_cmp (data flag : Z) : bool := Z.land data flag =? flag.

(** np_comp_msgproperty.c:102-137 _np_msgproperty_conf_t_new, then 375-408 _np_msgproperty_get_or_create: mode as asked for,
    mep ANY_TO_ANY.  2 * NP_PI * NP_PI seconds.  Simplified: reply_dhkey is not set by the constructor; taken as zero. *)
Definition new_conf (mode : Z) : conf :=
  mkConf None mode 68 1 19739208 3 180 3 (Z.lor FIFO OVERFLOW_PURGE) 16 2 false 0 zero_id zero_id.

(** one key of the subject: the object it points to (entity_array[0]) and whether its state is ON_HOLD_MSGPROPERTY *)
Record st := mkSt { objs : list conf; strs : list (option (list Z)); rx : option (nat * bool); tx : option (nat * bool); listeners : nat }.
Definition init : st := mkSt [] [] None None 0.

Definition obj (s : st) (o : nat) : conf := nth o (objs s) (new_conf 0).
Definition set_obj (s : st) (o : nat) (c : conf) : st := mkSt (upd (objs s) o c) (strs s) (rx s) (tx s) (listeners s).

(** np_comp_msgproperty.c:288-337 _np_msgproperty_conf_get: with INBOUND among the modes only the receiving key is looked at *)
Definition conf_get (mode : Z) (s : st) : option nat :=
  if flag_cmp mode INBOUND then option_map fst (rx s)
  else if flag_cmp mode OUTBOUND then option_map fst (tx s)
  else None.

(** np_comp_msgproperty.c:375-408 _np_msgproperty_get_or_create *)
Definition get_or_create (mode : Z) (s : st) : st * nat :=
  match conf_get mode s with
  | Some o => (s, o)
  | None => (mkSt (objs s ++ [new_conf mode]) (strs s) (rx s) (tx s) (listeners s), length (objs s))
  end.

(** what the event evt_property|evt_internal does to a key (np_key.c:205-207, 465-468, 475-482): a new key takes the object
    (np_comp_msgproperty.c:1614-1644 __np_set_property), a key in use copies it over its own object (1646-1659
    __np_property_update), a key on hold has no transition for it *)
Definition property_event (k : option (nat * bool)) (o : nat) (s : st) : option (nat * bool) * st :=
  match k with
  | None => (Some (o, false), s)
  | Some (p, false) => (k, set_obj s p (obj s o))
  | Some (p, true) => (k, s)
  end.

(** np_comp_msgproperty.c:409-466 np_msgproperty_register *)
Definition register (o : nat) (s : st) : st :=
  let s1 := if flag_cmp (c_mode (obj s o)) INBOUND
            then let '(k, s') := property_event (rx s) o s in mkSt (objs s') (strs s') k (tx s') (listeners s')
            else s in
  if flag_cmp (c_mode (obj s1 o)) OUTBOUND
  then let '(k, s') := property_event (tx s1) o s1 in mkSt (objs s') (strs s') (rx s') k (listeners s')
  else s1.

(** assignment of a double to a uint32_t: fraction dropped, undefined when out of range *)
Definition to_u32 (d : Z) : outcome Z := if d / 1000000 <? 4294967296 then Ok (d / 1000000) else UB.

(** the text found at reply_id (an id of 32 bytes) when it is used as a C string.  Simplified: if no byte is zero the text
    would go on in the fields behind it; here it ends there. *)
Fixpoint cstr (bs : list Z) : list Z := match bs with [] => [] | b :: r => if b =? 0 then [] else b :: cstr r end.
Definition list_eqb (a b : list Z) : bool := if list_eq_dec Z.eq_dec a b then true else false.

(** np_comp_msgproperty.c:1515-1524: the reply subject *)
Definition reply_step (rep : option nat) (reply : list Z) (ss : list (option (list Z))) : outcome (option nat * list (option (list Z))) :=
  if nth 0 reply 0 =? 0 then Ok (None, ss)
  else match rep with
       | None => Ok (Some (length ss), ss ++ [Some (cstr reply)])
       | Some a =>
         match nth a ss None with
         | None => UB                                                       (* strncmp reads freed memory *)
         | Some txt => if list_eqb txt (cstr reply) then Ok (None, ss)
                       else Ok (Some (length ss), upd (ss ++ [Some (cstr reply)]) a None)
         end
       end.

(** np_comp_msgproperty.c:1475-1561 np_msgproperty_from_user, and neuropil.c:930 (unique_uuids_check) *)
Definition from_user (p : props) (o : nat) (s : st) : outcome st :=
  let c := obj s o in
  let mode := if p_role p =? 1 then INBOUND else if p_role p =? 0 then OUTBOUND else DEFAULT_MODE in
  obind (if 0 <? p_ittl p then to_u32 (p_ittl p) else Ok (c_max c)) (fun mx =>
  obind (if 0 <? p_iupd p then to_u32 (p_iupd p) else Ok 3) (fun mn =>
  obind (reply_step (c_rep c) (p_reply p) (strs s)) (fun '(rep, ss) =>
  Ok (mkSt (upd (objs s) o
       (mkConf rep mode 68
         (if p_ack p =? 1 then 2 else if p_ack p =? 2 then 4 else 1)
         (if 0 <? p_mttl p then p_mttl p else c_mttl c)
         (if 0 <? p_retry p then p_retry p else c_retry c)
         mx mn
         (if p_policy p =? 0 then Z.lor FIFO OVERFLOW_REJECT else if p_policy p =? 1 then Z.lor FIFO OVERFLOW_PURGE
          else if p_policy p =? 2 then Z.lor LIFO OVERFLOW_REJECT else if p_policy p =? 3 then Z.lor LIFO OVERFLOW_PURGE
          else c_policy c)
         (if 0 <? p_cache p then p_cache p else c_cache c)
         (if 0 <? p_par p then p_par p else c_thr c)
         true (p_aud_type p) (p_aud_id p) (c_reply c)))
       ss (rx s) (tx s) (listeners s))))).

(** neuropil.c:909-934 np_set_mx_properties; [true]: np_ok, [false]: np_invalid_operation *)
Definition np_set_mx_properties (p : props) (s : st) : outcome (bool * st) :=
  if (p_aud_type p =? 2) && list_eqb (p_aud_id p) zero_id then Ok (false, s)
  else let '(s1, o) := get_or_create DEFAULT_MODE s in
       obind (from_user p o s1) (fun s2 => Ok (true, register o s2)).

(** np_comp_msgproperty.c:1425-1473 np_msgproperty4user, into a zeroed structure.  max_parallel is one byte. *)
Definition np_msgproperty4user (c : conf) : props :=
  mkProps
    (if flag_cmp (c_mode c) DEFAULT_MODE then 2 else if flag_cmp (c_mode c) OUTBOUND then 0 else if flag_cmp (c_mode c) INBOUND then 1 else 0)
    (if c_ack c =? 2 then 1 else if c_ack c =? 4 then 2 else 0)
    (match c_rep c with Some _ => c_reply c | None => zero_id end)
    0 zero_id
    (if flag_cmp (c_policy c) FIFO then (if flag_cmp (c_policy c) OVERFLOW_REJECT then 0 else 1)
     else (if flag_cmp (c_policy c) OVERFLOW_REJECT then 2 else 3))
    (c_cache c) (u8 (c_thr c)) (c_retry c) (c_max c * 1000000) (c_min c * 1000000) (c_mttl c).

(** neuropil.c:838-851 np_get_mx_properties *)
Definition np_get_mx_properties (s : st) : props :=
  match conf_get DEFAULT_MODE s with
  | Some o => np_msgproperty4user (obj s o)
  | None => mkProps 0 0 zero_id 0 zero_id 0 0 0 0 0 0 0
  end.

(** neuropil.c:640-735 np_send_to: channel part.  First result: np_ok; second: the message event reaches a sending key that is
    in use (np_key.c:453-464), on hold it is ignored.  Acceptance by the job queue: C05 *)
Definition np_send (s : st) : bool * bool * st :=
  let '(s1, o) := get_or_create OUTBOUND s in
  if c_aud_type (obj s1 o) =? 1 then (false, false, s1)
  else let s2 := register o s1 in
       (true, match tx s2 with Some (_, held) => negb held | None => false end, s2).

(** np_legacy.c:300-326 np_add_receive_listener (from np_add_receive_cb) *)
Definition np_add_receive_cb (s : st) : st :=
  let '(s1, o) := get_or_create INBOUND s in
  let s2 := register o s1 in
  if c_aud_type (obj s2 o) =? 1 then s2
  else match rx s2 with
       | Some _ => mkSt (objs s2) (strs s2) (rx s2) (tx s2) (S (listeners s2))
       | None => s2
       end.

(** a user message arriving for the subject reaches the callbacks: the receiving key is in use (np_key.c:453-456) and a
    callback is registered (the session with the sender: C59) *)
Definition delivers (s : st) : bool := match rx s with Some (_, false) => negb (listeners s =? 0)%nat | _ => false end.

(** neuropil.c:936-995 np_mx_properties_enable / np_mx_properties_disable.  The event for the receiving side is sent to the bare
    subject id, at which no key of the channel lives (np_comp_msgproperty.c:60-68: keys live at the tweaked ids), so it has no
    effect; the event for the sending side is sent to the sending key. *)
Definition hold (b : bool) (k : option (nat * bool)) : option (nat * bool) := option_map (fun '(o, _) => (o, b)) k.
Definition np_mx_properties_disable (s : st) : st := mkSt (objs s) (strs s) (rx s) (hold true (tx s)) (listeners s).
Definition np_mx_properties_enable (s : st) : st := mkSt (objs s) (strs s) (rx s) (hold false (tx s)) (listeners s).

(** calls of a user *)
Inductive call := Set_ (p : props) | Send | Listen | Disable | Enable.
Definition step (c : call) (s : st) : outcome st :=
  match c with
  | Set_ p => obind (np_set_mx_properties p s) (fun r => Ok (snd r))
  | Send => Ok (snd (np_send s))
  | Listen => Ok (np_add_receive_cb s)
  | Disable => Ok (np_mx_properties_disable s)
  | Enable => Ok (np_mx_properties_enable s)
  end.
Fixpoint run (h : list call) (s : st) : outcome st := match h with [] => Ok s | c :: r => obind (step c s) (run r) end.
