(** One side (receiving or sending) of a data channel at run time: src/core/np_comp_msgproperty.c (message cache, limit of parallel
    messages, list of uuids, handling of messages, redelivery list), src/np_axon.c:61-114 (what is stored for redelivery).
    Messages reach the key of the channel as events.  The cached messages are put back as events of the running chain
    (src/np_eventqueue.c:62-134), which this key takes one by one; other events may come in between.
    Not modelled: the content of the callbacks, reference counts, the trees as such (C16-C19), the session table: which sessions
    exist ([has]) is given with each event (C59). *)
From Verif Require Import Base.

(** a message as far as the channel looks at it: uuid, session id (np_message.c:850-856: the audience), time stamp plus ttl
    (np_message.c:301-326), and whether the callback that decrypts it will succeed *)
Record msg := mkMsg { m_uuid : Z; m_session : Z; m_expiry : Z; m_ok : bool }.
(** settings (C55); [k_recv]: the receiving key *)
Record config := mkCfg { k_policy : Z; k_size : Z; k_max : Z; k_ack : Z; k_unique : bool; k_recv : bool }.
(** events of the chain for this key: a message, or a copy stored for redelivery *)
Inductive item := IMsg (m : msg) | IStore (uuid : Z).
(** [given]: handed to the callbacks with success; [failed]: a callback refused it; [dups]: known uuid; [dropped]: cache was full;
    [expired]: cleaned up *)
Record chan := mkChan {
  cfg : config; cache : list msg; pend : list item; thr : Z; seen : list (Z * Z); awaiting : list Z;
  given : list msg; failed : list msg; dups : list msg; dropped : list msg; expired : list msg }.
Definition start (k : config) : chan := mkChan k [] [] 0 [] [] [] [] [] [] [].

Definition flag_cmp (data flag : Z) : bool := Z.land data flag =? flag.
(** np_comp_msgproperty.h:252-255, 282-285 *)
Definition is_fifo (k : config) := flag_cmp (k_policy k) 1.
Definition is_lifo (k : config) := flag_cmp (k_policy k) 2.
Definition is_reject (k : config) := flag_cmp (k_policy k) 16.
Definition is_purge (k : config) := flag_cmp (k_policy k) 32.

(** np_comp_msgproperty.c:79-100 *)
Definition threshold_increase (k : config) (t : Z) : Z := if t <? k_max k then t + 1 else t.
Definition threshold_breached (c : chan) : bool := k_max (cfg c) <? thr c.
Definition threshold_decrease (t : Z) : Z := if 0 <? t then t - 1 else t.

(** the element the scan looks at: head for FIFO, tail for LIFO, nothing for any other policy *)
Definition front (k : config) (l : list msg) : option (msg * list msg) :=
  if is_fifo k then match l with m :: r => Some (m, r) | [] => None end
  else if is_lifo k then match rev l with m :: r => Some (m, rev r) | [] => None end
  else None.

(** np_comp_msgproperty.c:687-750 and 776-832: the scan of the cache.  [n]: the visit counter.  The iterator moves on only past a
    message that was selected; a selected message is taken out (dll_remove by identity: an object is in the cache once).
    [stop]: leave after one turn (828). *)
Fixpoint scan (k : config) (sel : msg -> bool) (stop : bool) (n : nat) (l : list msg) : list msg * list msg :=
  match n with
  | O => ([], l)
  | S n' =>
    if Z.of_nat n <=? k_size k then
      match front k l with
      | None => ([], l)
      | Some (m, r) =>
        if sel m then
          match r with
          | [] => ([m], [])
          | _ => if stop then ([m], r) else let '(d, r') := scan k sel stop n' r in (m :: d, r')
          end
        else if stop then ([], l) else scan k sel stop n' l
      end
    else ([], l)
  end.

(** np_eventqueue.c:107-109: the chain holds at most 255 events (C30); [room]: places left in the running chain *)
Definition put (room : nat) (ds : list msg) (c : chan) (rest : list msg) : outcome chan :=
  if (room <? length ds)%nat then Abort
  else Ok (mkChan (cfg c) rest (pend c ++ map IMsg ds) (thr c) (seen c) (awaiting c) (given c) (failed c) (dups c) (dropped c) (expired c)).

(** 661-751 _np_msgproperty_check_msgcache *)
Definition check_msgcache (has : Z -> bool) (room : nat) (c : chan) : outcome chan :=
  let '(ds, rest) := scan (cfg c) (fun m => has (m_session m)) false (length (cache c)) (cache c) in put room ds c rest.
(** 753-833 _np_msgproperty_check_msgcache_for *)
Definition check_msgcache_for (has : Z -> bool) (target : Z) (room : nat) (c : chan) : outcome chan :=
  if has target then
    let '(ds, rest) := scan (cfg c) (fun m => m_session m =? target) (threshold_breached c) (length (cache c)) (cache c) in put room ds c rest
  else Ok c.
(** 835-878 _np_msgproperty_cleanup_cache; np_message.c:328-353 _np_message_is_expired *)
Definition cleanup_cache (now : Z) (c : chan) : chan :=
  mkChan (cfg c) (filter (fun m => negb (m_expiry m - now <=? 0)) (cache c)) (pend c) (thr c) (seen c) (awaiting c)
    (given c) (failed c) (dups c) (dropped c) (expired c ++ filter (fun m => m_expiry m - now <=? 0) (cache c)).
(** 880-935 __np_property_add_msg_to_cache *)
Definition add_msg_to_cache (m : msg) (c : chan) : chan :=
  let k := cfg c in
  let set ch dr := mkChan k ch (pend c) (thr c) (seen c) (awaiting c) (given c) (failed c) (dups c) dr (expired c) in
  if k_size k <=? Z.of_nat (length (cache c)) then
    let '(ch, dr) := if is_purge k then
                       (if is_fifo k then match cache c with o :: r => (r, [o]) | [] => ([], []) end
                        else if is_lifo k then match rev (cache c) with o :: r => (rev r, [o]) | [] => ([], []) end
                        else (cache c, []))
                     else (cache c, []) in
    if is_reject k then set ch (dropped c ++ dr ++ [m]) else set (ch ++ [m]) (dropped c ++ dr)
  else set (cache c ++ [m]) (dropped c).

(** 468-484 _np_msgproperty_check_msg_uniquety *)
Definition known (u : Z) (s : list (Z * Z)) : bool := existsb (fun e => fst e =? u) s.
(** 491-519 _np_msgproperty_job_msg_uniquety *)
Definition job_msg_uniquety (now : Z) (c : chan) : chan :=
  if k_unique (cfg c) then
    mkChan (cfg c) (cache c) (pend c) (thr c) (filter (fun e => negb (snd e <? now)) (seen c)) (awaiting c) (given c) (failed c) (dups c) (dropped c) (expired c)
  else c.

(** 1995-2053 __np_property_handle_in_msg *)
Definition handle_in_msg (has : Z -> bool) (room : nat) (m : msg) (c : chan) : outcome chan :=
  let u := k_unique (cfg c) in
  let dup := u && known (m_uuid m) (seen c) in
  let c1 := mkChan (cfg c) (cache c) (pend c) (threshold_decrease (threshold_increase (cfg c) (thr c)))
    (if u && negb dup then seen c ++ [(m_uuid m, m_expiry m)] else seen c) (awaiting c)
    (if negb dup && m_ok m then given c ++ [m] else given c)
    (if negb dup && negb (m_ok m) then failed c ++ [m] else failed c)
    (if dup then dups c ++ [m] else dups c) (dropped c) (expired c) in
  match cache c1 with [] => Ok c1 | _ => check_msgcache_for has (m_session m) room c1 end.
(** 2147-2195 __np_property_handle_out_msg with np_axon.c:92-109: with ACK_DESTINATION (2) a copy is put aside before encryption *)
Definition handle_out_msg (m : msg) (c : chan) : chan :=
  let k := cfg c in
  let t := threshold_increase k (thr c) in
  mkChan k (cache c) (pend c ++ if flag_cmp (k_ack k) 2 then [IStore (m_uuid m)] else [])
    (if flag_cmp (k_ack k) 1 then threshold_decrease t else t) (seen c) (awaiting c)
    (if m_ok m then given c ++ [m] else given c) (if m_ok m then failed c else failed c ++ [m]) (dups c) (dropped c) (expired c).
(** 2197-2230 __np_property_redelivery_set *)
Definition redelivery_set (u : Z) (c : chan) : chan :=
  if existsb (Z.eqb u) (awaiting c) then c
  else mkChan (cfg c) (cache c) (pend c) (threshold_increase (cfg c) (thr c)) (seen c) (awaiting c ++ [u])
         (given c) (failed c) (dups c) (dropped c) (expired c).
(** 2232-2265 __np_response_handler_set: acknowledged or timed out *)
Definition response_handler_set (u : Z) (c : chan) : chan :=
  if existsb (Z.eqb u) (awaiting c) then
    mkChan (cfg c) (cache c) (pend c) (threshold_decrease (thr c)) (seen c) (filter (fun x => negb (x =? u)) (awaiting c))
      (given c) (failed c) (dups c) (dropped c) (expired c)
  else c.

(** 2072-2145 __is_sender_token_available / __is_receiver_token_available / __is_no_token_available (np_key.c:453-464):
    handled if below the limit and the session exists, else cached *)
Definition take (has : Z -> bool) (room : nat) (m : msg) (c : chan) : outcome chan :=
  if negb (threshold_breached c) && has (m_session m)
  then (if k_recv (cfg c) then handle_in_msg has room m c else Ok (handle_out_msg m c))
  else Ok (add_msg_to_cache m c).

(** what happens to the channel *)
Inductive ev :=
| Arrive (m : msg)             (* a message from the network or from np_send or from redelivery *)
| Chain                        (* the next event of a running chain *)
| Check                        (* 1940-1978 __np_property_check *)
| Response (u : Z)
| Config (k : config).         (* np_set_mx_properties *)
Record env := mkEnv { e_now : Z; e_has : Z -> bool; e_room : nat }.
Definition step (x : env * ev) (c : chan) : outcome chan :=
  let '(e, a) := x in
  match a with
  | Arrive m => take (e_has e) (e_room e) m c
  | Chain =>
    match pend c with
    | [] => Ok c
    | i :: r =>
      let c' := mkChan (cfg c) (cache c) r (thr c) (seen c) (awaiting c) (given c) (failed c) (dups c) (dropped c) (expired c) in
      match i with IMsg m => take (e_has e) (e_room e) m c' | IStore u => Ok (redelivery_set u c') end
    end
  | Check => obind (check_msgcache (e_has e) (e_room e) c) (fun c' => Ok (job_msg_uniquety (e_now e) (cleanup_cache (e_now e) c')))
  | Response u => Ok (response_handler_set u c)
  | Config k => Ok (mkChan k (cache c) (pend c) (thr c) (seen c) (awaiting c) (given c) (failed c) (dups c) (dropped c) (expired c))
  end.
Fixpoint run (h : list (env * ev)) (c : chan) : outcome chan := match h with [] => Ok c | x :: r => obind (step x c) (run r) end.
