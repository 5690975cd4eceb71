(** The keys of a data channel at all its senders and receivers: src/core/np_comp_intent.c:674-1240 (sessions of a channel),
    src/np_axon.c:61-117 (encryption), src/np_dendrit.c:287-334 (decryption, import of keys), src/np_crypto.c:278-314.
    Many nodes, each with a sending and a receiving end of one channel, and the network between them.  Which intents are accepted is
    C59-C62; here an intent arrives (accepted) or is removed.  Not modelled: keys of acknowledgements, reference counts, threads. *)
From Verif Require Import Base Secure_Model.

(** session_type of np_crypto_session_t *)
Inductive kind := KNone | KInitial | KPrivate | KShared.
Record entry (K : Type) := mkE { e_kind : kind; e_keys : session K }.
Arguments mkE {K}. Arguments e_kind {K}. Arguments e_keys {K}.
(** the sessions of a channel by their id (entity_array[3]; np_tree as a finite map, C18) *)
Definition tree K := list (Z * entry K).
Fixpoint find {V} (i : Z) (l : list (Z * V)) : option V := match l with [] => None | (j, v) :: r => if j =? i then Some v else find i r end.
Definition del {V} (i : Z) (l : list (Z * V)) : list (Z * V) := filter (fun e => negb (fst e =? i)) l.
Definition put {V} (i : Z) (v : V) (l : list (Z * V)) : list (Z * V) := (i, v) :: del i l.                                 (* np_tree_replace_dhkey *)
Definition put_new {V} (i : Z) (v : V) (l : list (Z * V)) : list (Z * V) := match find i l with None => (i, v) :: l | Some _ => l end.  (* np_tree_insert_dhkey *)

(** np_comp_intent.c:748-751, 936-939: ids of the sessions of two intents (C01: addition and exclusive or of keys) *)
Definition private_id (a b : Z) : Z := (a + b) mod 2 ^ 256.
Definition initial_id (a b : Z) : Z := Z.lxor a b.

(** an end of the channel: fingerprint of the own intent that was announced, sessions, key messages that wait to be encrypted (id of the
    session, content) *)
Record chan (K : Type) := mkC { c_cur : Z; c_tree : tree K; c_out : list (Z * list (Z * K)) }.
Arguments mkC {K}. Arguments c_cur {K}. Arguments c_tree {K}. Arguments c_out {K}.

(** a new session with a peer (np_crypto_session on a new object); [None]: libsodium fails *)
Definition new_session {K} (x : exchange K) (me : Z * Z) (peer_pk : Z) (remote_is_client : bool) : option (session K) :=
  match (if remote_is_client then kx_server x else kx_client x) (fst me) (snd me) peer_pk with
  | Some _ => Some (crypto_session x (fst me) (snd me) peer_pk remote_is_client no_session)
  | None => None
  end.
(** np_comp_intent.c:752-862 and 941-1049, the part they share: [p], [i] are the ids, [rc] says if the peer is client in the private
    session (it has the other part in the initial one).  Both sessions are stored if one of them is missing, the other one then without keys.
    The flag: something was stored *)
Definition update_tree {K} (x : exchange K) (me : Z * Z) (peer_pk : Z) (rc : bool) (p i : Z) (delete : bool) (t : tree K) : tree K * bool :=
  if delete then (del i (del p t), false)
  else
    let np := match find p t with None => true | Some _ => false end in
    let ni := match find i t with None => true | Some _ => false end in
    let sp := if np then option_map (mkE KPrivate) (new_session x me peer_pk rc) else Some (mkE KNone no_session) in
    let si := if ni then option_map (mkE KInitial) (new_session x me peer_pk (negb rc)) else Some (mkE KNone no_session) in
    if np || ni then match sp, si with Some a, Some b => (put i b (put p a t), true) | _, _ => (t, false) end
    else (t, false).
(** np_comp_intent.c:721-863 _np_intent_update_sender_session: at the receiver, the intent of a sender *)
Definition receiver_gets {K} (x : exchange K) (me : Z * Z) (f peer_pk : Z) (delete : bool) (c : chan K) : chan K :=
  mkC (c_cur c) (fst (update_tree x me peer_pk true (private_id f (c_cur c)) (initial_id f (c_cur c)) delete (c_tree c))) (c_out c).
(** the key a node sends with, in a message (1067-1071, 1179-1182) *)
Definition key_body {K} (f : Z) (s : session K) : list (Z * K) := match s_write s with Some k => [(f, k)] | None => [] end.
(** np_comp_intent.c:910-1099 _np_intent_update_receiver_session: at the sender, the intent of a receiver; the own key is sent if
    sessions were stored *)
Definition sender_gets {K} (x : exchange K) (me : Z * Z) (g peer_pk : Z) (delete : bool) (c : chan K) : chan K :=
  if g =? c_cur c then c
  else
    let p := private_id (c_cur c) g in let i := initial_id (c_cur c) g in
    let '(t, sent) := update_tree x me peer_pk false p i delete (c_tree c) in
    mkC (c_cur c) t (c_out c ++ match find (c_cur c) t with Some e => if sent then [(i, key_body (c_cur c) (e_keys e))] else [] | None => [] end).
(** np_comp_intent.c:1101-1236 _np_intent_update_session with crud_create: the session of an own intent, with random keys; a sender sends
    its key over all initial sessions *)
Definition new_own {K} (sender : bool) (f : Z) (read write : K) (c : chan K) : chan K :=
  let t := put_new f (mkE KShared (mkS true (Some read) (Some write))) (c_tree c) in
  mkC (c_cur c) t
    (if sender then c_out c ++ map (fun e => (fst e, [(f, write)])) (filter (fun e => negb (fst e =? f) && match e_kind (snd e) with KInitial => true | _ => false end) t)
     else c_out c).
(** ... with crud_delete (1152-1159) *)
Definition end_own {K} (f : Z) (c : chan K) : chan K := mkC (c_cur c) (del f (c_tree c)) (c_out c).
(** np_comp_msgproperty.c:1767 *)
Definition announce {K} (f : Z) (c : chan K) : chan K := mkC f (c_tree c) (c_out c).
(** np_comp_intent.c:865-907 _np_intent_import_session with crud_create *)
Definition import1 {K} (t : tree K) (b : Z * K) : tree K :=
  match find (fst b) t with
  | None => put_new (fst b) (mkE KShared (mkS false (Some (snd b)) None)) t
  | Some old => put (fst b) (mkE KShared (mkS (s_set (e_keys old)) (Some (snd b)) (s_write (e_keys old)))) t
  end.

(** all nodes and the messages with keys that were sent: id of the session, key they are encrypted with, content *)
Record sys (K : Type) := mkY { y_send : Z -> chan K; y_recv : Z -> chan K; y_net : list (Z * K * list (Z * K)) }.
Arguments mkY {K}. Arguments y_send {K}. Arguments y_recv {K}. Arguments y_net {K}.
Definition at_node {V} (m : Z -> V) (i : Z) (v : V) : Z -> V := fun j => if j =? i then v else m j.

Inductive ev (K : Type) :=
| SenderGets (i g : Z) (delete : bool)      (* the sender of node i gets (loses) the intent g of a receiver *)
| ReceiverGets (j f : Z) (delete : bool)    (* the receiver of node j gets (loses) the intent f of a sender *)
| NewSender (i f : Z) (read write : K) | EndSender (i f : Z) | AnnounceSender (i f : Z)
| NewReceiver (j g : Z) (read write : K) | AnnounceReceiver (j g : Z)
| Flush (i : Z)                             (* the oldest key message of node i is encrypted and sent *)
| Deliver (j : Z) (n : nat).                (* a message that was sent arrives (any of them, any time, as often as it likes) *)
Arguments SenderGets {K}. Arguments ReceiverGets {K}. Arguments NewSender {K}. Arguments EndSender {K}. Arguments AnnounceSender {K}.
Arguments NewReceiver {K}. Arguments AnnounceReceiver {K}. Arguments Flush {K}. Arguments Deliver {K}.

(** np_axon.c:61-117: encrypted with the key to write of the session; without one it is dropped here (simplified: in the code it waits, C56) *)
Definition flush {K} (c : chan K) : chan K * list (Z * K * list (Z * K)) :=
  match c_out c with
  | [] => (c, [])
  | (i, b) :: r =>
    (mkC (c_cur c) (c_tree c) r, match find i (c_tree c) with Some e => match s_write (e_keys e) with Some k => [(i, k, b)] | None => [] end | None => [] end)
  end.
(** np_dendrit.c:287-334 _np_in_callback_wrapper: the session of the id; the content of a message of an initial session is imported.
    [kdec]: keys are compared to say if the message decrypts *)
Definition deliver {K} (kdec : forall a b : K, {a = b} + {a <> b}) (m : Z * K * list (Z * K)) (c : chan K) : chan K :=
  let '(i, k, b) := m in
  match find i (c_tree c) with
  | Some e =>
    match e_kind e, s_read (e_keys e) with
    | KInitial, Some k' => if kdec k k' then mkC (c_cur c) (fold_left import1 b (c_tree c)) (c_out c) else c
    | _, _ => c
    end
  | None => c
  end.
(** one event; [nodes]: secret and public key of the identity of a node; [who]: the node that made an intent (the public key in it is the
    one of the identity, np_token_factory.c:109-160) *)
Definition step {K} (x : exchange K) (kdec : forall a b : K, {a = b} + {a <> b}) (nodes : Z -> Z * Z) (who : Z -> Z) (e : ev K) (y : sys K) : sys K :=
  match e with
  | SenderGets i g d => mkY (at_node (y_send y) i (sender_gets x (nodes i) g (snd (nodes (who g))) d (y_send y i))) (y_recv y) (y_net y)
  | ReceiverGets j f d => mkY (y_send y) (at_node (y_recv y) j (receiver_gets x (nodes j) f (snd (nodes (who f))) d (y_recv y j))) (y_net y)
  | NewSender i f r w => mkY (at_node (y_send y) i (new_own true f r w (y_send y i))) (y_recv y) (y_net y)
  | EndSender i f => mkY (at_node (y_send y) i (end_own f (y_send y i))) (y_recv y) (y_net y)
  | AnnounceSender i f => mkY (at_node (y_send y) i (announce f (y_send y i))) (y_recv y) (y_net y)
  | NewReceiver j g r w => mkY (y_send y) (at_node (y_recv y) j (new_own false g r w (y_recv y j))) (y_net y)
  | AnnounceReceiver j g => mkY (y_send y) (at_node (y_recv y) j (announce g (y_recv y j))) (y_net y)
  | Flush i => let '(c, m) := flush (y_send y i) in mkY (at_node (y_send y) i c) (y_recv y) (y_net y ++ m)
  | Deliver j n => match nth_error (y_net y) n with Some m => mkY (y_send y) (at_node (y_recv y) j (deliver kdec m (y_recv y j))) (y_net y) | None => y end
  end.
Definition run {K} x kdec nodes who (h : list (ev K)) (y : sys K) : sys K := fold_left (fun y e => step x kdec nodes who e y) h y.
(** no sessions; the intents that are announced first *)
Definition start {K} (cs cr : Z -> Z) : sys K := mkY (fun i => mkC (cs i) [] []) (fun j => mkC (cr j) [] []) [].
