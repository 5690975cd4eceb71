(** Model of the quality of the connection to one peer and of what follows from it: connecting, pings,
    the window of outcomes, the averages, leaving the routing table, the leave message, destruction.
    src/core/np_comp_node.c (guards and actions of IN_SETUP_NODE and IN_USE_NODE), src/np_node.c:54-90,
    the order of the transitions src/np_key.c:239-287, 367-397.
    Simplified: times are integers in units of 10^-10 s instead of doubles; the latency average is rounded
    down to a unit; the piggy messages (np_comp_node.c:951-995), the update request of np_comp_node.c:1037-1079
    and message parts sent to the peer are left out. *)
From Verif Require Import Base.

(** ** Constants, include/np_settings.h:66, 233-252 and src/np_msgproperty_init.c.part:83, 129 *)
Definition SECOND : Z := 10000000000.
Definition NP_PI : Z := 31415926535.
Definition PINGS_SEC : Z := NP_PI * 10.
Definition PINGS_MAX : Z := PINGS_SEC * 3.
Definition GRACETIME : Z := PINGS_MAX + 3 * SECOND.
Definition HS_TTL : Z := 5 * SECOND.
Definition JOIN_TTL : Z := 5 * SECOND.
Definition WINDOW : nat := 31.

(** success_avg is kept as twice the number of successes it was computed from; the average is [avg2 / 62].
    success_avg < BAD_LINK (0.25), > BAD_LINK, <= GOOD_LINK (0.75) *)
Definition bad (avg2 : Z) : bool := 4 * avg2 <? 62.
Definition above_bad (avg2 : Z) : bool := 62 <? 4 * avg2.
Definition not_good (avg2 : Z) : bool := 4 * avg2 <=? 186.

Inductive phase := Setup | InUse | Gone.

(** the fields of struct np_node_s and of the key used here, include/np_node.h:39-80 *)
Record link := mkLink {
  l_phase : phase;
  l_created : Z;          (* np_key_s.created_at *)
  l_passive : bool;       (* protocol has PASSIVE *)
  l_session : bool;       (* session_key_is_set *)
  l_joined : bool;        (* _joined_status == Connected; _handshake_status never gets that far, see completion *)
  l_hs_at : Z; l_join_at : Z; l_leave_at : Z;
  l_attempts : Z;
  l_next_ping : Z;
  l_table : bool; l_leafset : bool;
  l_swin : list bool; l_sidx : nat; l_avg2 : Z;
  l_lwin : list Z; l_lidx : nat; l_latency : Z }.

(** src/np_node.c:54-90; [rnd] is the random delay of the first ping, below NP_PI * 10; [hs] is 0, or the time
    of the handshake sent to the wildcard of this peer, np_comp_node.c:476-491 *)
Fixpoint alternate (n : nat) (b : bool) : list bool :=
  match n with O => [] | S n => b :: alternate n (negb b) end.
Definition fresh (now : Z) (passive : bool) (rnd hs : Z) : link :=
  mkLink Setup now passive false false hs 0 0 0 (now + rnd) false false
         (alternate WINDOW false) 0 31 (repeat (SECOND / 100) WINDOW) 0 (- SECOND).

(** Field updates. *)
Definition w_phase p l := mkLink p (l_created l) (l_passive l) (l_session l) (l_joined l) (l_hs_at l) (l_join_at l) (l_leave_at l)
  (l_attempts l) (l_next_ping l) (l_table l) (l_leafset l) (l_swin l) (l_sidx l) (l_avg2 l) (l_lwin l) (l_lidx l) (l_latency l).
Definition w_session b l := mkLink (l_phase l) (l_created l) (l_passive l) b (l_joined l) (l_hs_at l) (l_join_at l) (l_leave_at l)
  (l_attempts l) (l_next_ping l) (l_table l) (l_leafset l) (l_swin l) (l_sidx l) (l_avg2 l) (l_lwin l) (l_lidx l) (l_latency l).
Definition w_joined b l := mkLink (l_phase l) (l_created l) (l_passive l) (l_session l) b (l_hs_at l) (l_join_at l) (l_leave_at l)
  (l_attempts l) (l_next_ping l) (l_table l) (l_leafset l) (l_swin l) (l_sidx l) (l_avg2 l) (l_lwin l) (l_lidx l) (l_latency l).
Definition w_hs_at t l := mkLink (l_phase l) (l_created l) (l_passive l) (l_session l) (l_joined l) t (l_join_at l) (l_leave_at l)
  (l_attempts l) (l_next_ping l) (l_table l) (l_leafset l) (l_swin l) (l_sidx l) (l_avg2 l) (l_lwin l) (l_lidx l) (l_latency l).
Definition w_join_at t l := mkLink (l_phase l) (l_created l) (l_passive l) (l_session l) (l_joined l) (l_hs_at l) t (l_leave_at l)
  (l_attempts l) (l_next_ping l) (l_table l) (l_leafset l) (l_swin l) (l_sidx l) (l_avg2 l) (l_lwin l) (l_lidx l) (l_latency l).
Definition w_leave_at t l := mkLink (l_phase l) (l_created l) (l_passive l) (l_session l) (l_joined l) (l_hs_at l) (l_join_at l) t
  (l_attempts l) (l_next_ping l) (l_table l) (l_leafset l) (l_swin l) (l_sidx l) (l_avg2 l) (l_lwin l) (l_lidx l) (l_latency l).
Definition w_attempts n l := mkLink (l_phase l) (l_created l) (l_passive l) (l_session l) (l_joined l) (l_hs_at l) (l_join_at l) (l_leave_at l)
  n (l_next_ping l) (l_table l) (l_leafset l) (l_swin l) (l_sidx l) (l_avg2 l) (l_lwin l) (l_lidx l) (l_latency l).
Definition w_next_ping t l := mkLink (l_phase l) (l_created l) (l_passive l) (l_session l) (l_joined l) (l_hs_at l) (l_join_at l) (l_leave_at l)
  (l_attempts l) t (l_table l) (l_leafset l) (l_swin l) (l_sidx l) (l_avg2 l) (l_lwin l) (l_lidx l) (l_latency l).
Definition w_table b l := mkLink (l_phase l) (l_created l) (l_passive l) (l_session l) (l_joined l) (l_hs_at l) (l_join_at l) (l_leave_at l)
  (l_attempts l) (l_next_ping l) b (l_leafset l) (l_swin l) (l_sidx l) (l_avg2 l) (l_lwin l) (l_lidx l) (l_latency l).
Definition w_leafset b l := mkLink (l_phase l) (l_created l) (l_passive l) (l_session l) (l_joined l) (l_hs_at l) (l_join_at l) (l_leave_at l)
  (l_attempts l) (l_next_ping l) (l_table l) b (l_swin l) (l_sidx l) (l_avg2 l) (l_lwin l) (l_lidx l) (l_latency l).
Definition w_swin s i l := mkLink (l_phase l) (l_created l) (l_passive l) (l_session l) (l_joined l) (l_hs_at l) (l_join_at l) (l_leave_at l)
  (l_attempts l) (l_next_ping l) (l_table l) (l_leafset l) s i (l_avg2 l) (l_lwin l) (l_lidx l) (l_latency l).
Definition w_lwin s i l := mkLink (l_phase l) (l_created l) (l_passive l) (l_session l) (l_joined l) (l_hs_at l) (l_join_at l) (l_leave_at l)
  (l_attempts l) (l_next_ping l) (l_table l) (l_leafset l) (l_swin l) (l_sidx l) (l_avg2 l) s i (l_latency l).
Definition w_averages a t l := mkLink (l_phase l) (l_created l) (l_passive l) (l_session l) (l_joined l) (l_hs_at l) (l_join_at l) (l_leave_at l)
  (l_attempts l) (l_next_ping l) (l_table l) (l_leafset l) (l_swin l) (l_sidx l) a (l_lwin l) (l_lidx l) t.

(** What reaches the key of the peer.  [Noop] comes from the periodic check of all keys; [Other] is any event for
    which no transition has been written; [Session] is the alias setting the session key; [Leafset] and [Table]
    are changes made by the insertion of another peer (np_comp_node.c:563-564, 878-879). *)
Inductive kind :=
  | Response (rtt : Z)             (* received_at - send_at *)
  | Timeout (waited : Z)           (* expires_at - send_at *)
  | Shutdown
  | Noop
  | Other
  | Authn
  | NodeToken
  | Session
  | Leafset (b : bool)
  | Table (b : bool).

(** An event, the clock, and what the rest of the program answers while it is handled: is the token of the peer
    valid (_np_aaatoken_is_valid), do the routing table and the leafset take the peer. *)
Record event := mkEvent { e_kind : kind; e_now : Z; e_token : bool; e_table : bool; e_leafset : bool }.

(** What is sent to the peer. *)
Inductive output := OHandshake | OJoin | OPing | OLeave.

(** src/core/np_comp_node.c:661-776 __np_node_handle_completion.  _handshake_status is only ever set to
    Disconnected or Initiated (np_node.c:67, np_comp_node.c:487, 708), so its test is always true. *)
Definition completion (now : Z) (l : link) : link * list output :=
  if l_hs_at l + HS_TTL <? now then
    (w_attempts (u8 (l_attempts l + 1)) (w_hs_at now l), [OHandshake])
  else if l_session l && negb (l_joined l) && (l_join_at l + JOIN_TTL <? now) then
    (w_attempts (u8 (l_attempts l + 1)) (w_join_at now l), [OJoin])
  else (l, []).

(** src/core/np_comp_node.c:535-580 __np_node_add_to_leafset *)
Definition add_to_leafset (taken : bool) (l : link) : link :=
  if l_leafset l then l else if taken then w_leafset true l else l.

(** src/core/np_comp_node.c:778-793, 998-1080: upgrade, then IN_USE_NODE is entered *)
Definition upgrade (e : event) (l : link) : link * list output :=
  let '(l, o) := completion (e_now e) l in
  (add_to_leafset (e_leafset e) (w_phase InUse (w_joined true l)), o).

(** src/core/np_comp_node.c:1081-1159 __np_node_update_token *)
Definition update_token (now : Z) (l : link) : link * list output :=
  if l_session l && negb (l_joined l) then (w_join_at now (w_joined true l), [OJoin]) else (l, []).

(** src/core/np_comp_node.c:1917-1966 __np_node_handle_response *)
Definition next_index (i : nat) : nat := if Nat.eqb (S i) WINDOW then 0%nat else S i.
Definition handle_timeout (waited : Z) (l : link) : link :=
  let i := next_index (l_sidx l) in
  let j := next_index (l_lidx l) in
  w_lwin (upd (l_lwin l) j waited) j (w_swin (upd (l_swin l) i false) i l).
Definition handle_response (rtt : Z) (l : link) : link :=
  let i := next_index (l_sidx l) in
  let j := next_index (l_lidx l) in
  let win := if l_latency l =? - SECOND then repeat rtt WINDOW else l_lwin l in
  w_lwin (upd win j (if 0 <? rtt then rtt else l_latency l)) j (w_swin (upd (l_swin l) i true) i l).

(** the last outcome *)
Definition last_outcome (l : link) : bool := nth (l_sidx l) (l_swin l) false.
Definition ones (w : list bool) : Z := Z.of_nat (length (filter (fun b => b) w)).
Definition left_net (l : link) : bool := l_join_at l <? l_leave_at l.
Definition out_of_tables (l : link) : bool := negb (l_leafset l) && negb (l_table l).

(** src/core/np_comp_node.c:817-832: the averages *)
Definition averages (l : link) : link :=
  w_averages (2 * ones (l_swin l)) (fold_right Z.add 0 (l_lwin l) / Z.of_nat WINDOW) l.

(** src/core/np_comp_node.c:795-949 __np_node_update *)
Definition update_join_table (e : event) (l : link) : link :=
  if negb (l_table l) && last_outcome l && (l_created l + PINGS_SEC <? e_now e) && negb (l_passive l)
  then (if e_table e then w_table true l else l) else l.
Definition update_ping (now : Z) (l : link) : link * list output :=
  if above_bad (l_avg2 l) && (l_next_ping l <=? now) then
    (w_next_ping (if last_outcome l then now + PINGS_MAX * l_avg2 l / 62 else now + PINGS_SEC) l, [OPing])
  else (l, []).
Definition update_leave_table (e : event) (l : link) : link :=
  if negb (last_outcome l) && l_table l && not_good (l_avg2 l)
  then (if e_table e then w_table false l else l) else l.
Definition update (e : event) (l : link) : link * list output :=
  let l := averages l in
  if left_net l then (l, []) else
  let '(l, o) := update_ping (e_now e) (update_join_table e l) in
  (update_leave_table e l, o).

(** src/core/np_comp_node.c:229-283 __has_to_leave, for evt_noop *)
Definition has_to_leave (now : Z) (l : link) : bool :=
  if now + NP_PI <? l_created l + GRACETIME then false
  else if left_net l then false
  else out_of_tables l || bad (l_avg2 l).

(** src/core/np_comp_node.c:120-226 __is_node_invalid, for evt_noop *)
Definition is_invalid (e : event) (l : link) : bool :=
  if e_now e <? l_created l + GRACETIME then false
  else (15 <? l_attempts l) || left_net l || out_of_tables l || bad (l_avg2 l) || negb (e_token e).

(** src/core/np_comp_node.c:1209-1255 __np_node_send_shutdown; [message]: the event is an internal shutdown event *)
Definition send_shutdown (message : bool) (now : Z) (l : link) : link * list output :=
  (w_leave_at now l,
   if message && above_bad (l_avg2 l) && (l_leave_at l <? l_join_at l) then [OLeave] else []).

(** src/core/np_comp_node.c:1161-1194 __np_node_destroy *)
Definition destroy (l : link) : link := w_phase Gone (w_table false (w_leafset false l)).

(** One event: the transitions of IN_SETUP_NODE and IN_USE_NODE in their order, src/np_key.c:239-287, 367-397. *)
Definition step (l : link) (e : event) : link * list output :=
  match e_kind e with
  | Session => (w_session true l, [])
  | Leafset b => (match l_phase l with InUse => w_leafset b l | _ => l end, [])
  | Table b => (match l_phase l with InUse => w_table b l | _ => l end, [])
  | k =>
    match l_phase l with
    | Gone => (l, [])
    | Setup =>
      match k with
      | NodeToken => update_token (e_now e) l
      | Authn => upgrade e l
      | Shutdown => (destroy l, [])
      | Noop => if is_invalid e l then (destroy l, []) else completion (e_now e) l
      | _ => completion (e_now e) l
      end
    | InUse =>
      match k with
      | Response rtt => (handle_response rtt l, [])
      | Timeout w => (handle_timeout w l, [])
      | Shutdown => send_shutdown true (e_now e) l
      | Noop =>
        if has_to_leave (e_now e) l then send_shutdown true (e_now e) l
        else if is_invalid e l then (destroy (fst (send_shutdown false (e_now e) l)), [])
        else update e l
      | _ => update e l
      end
    end
  end.

(** A history of events; what was sent, with the time. *)
Fixpoint run (l : link) (es : list event) : link * list (Z * output) :=
  match es with
  | [] => (l, [])
  | e :: es => let '(l1, o) := step l e in
               let '(l2, os) := run l1 es in
               (l2, map (pair (e_now e)) o ++ os)
  end.
