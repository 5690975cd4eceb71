(** What the users of a channel expect of its keys. *)
From Verif Require Import Base Wire_Spec Secure_Model Secure_Spec Agree_Model.

(** the intents of senders and of receivers of a channel, and the ids of sessions that belong to a pair of them, do not collide: all of them are 256 bit
    hashes or made of hashes *)
Definition distinct_ids (SF RF : Z -> Prop) : Prop :=
  (forall f g, SF f -> RF g -> f <> g) /\
  forall f g, SF f -> RF g ->
    (forall f' g', SF f' -> RF g' -> ((f + g) mod 2 ^ 256 = (f' + g') mod 2 ^ 256 -> f = f' /\ g = g') /\ (Z.lxor f g = Z.lxor f' g' -> f = f' /\ g = g') /\
       (f + g) mod 2 ^ 256 <> Z.lxor f' g') /\
    (forall h, SF h \/ RF h -> (f + g) mod 2 ^ 256 <> h /\ Z.lxor f g <> h).
(** every node ([ND]) uses intents of its own only; intents it gets are intents of the other side *)
Definition proper {K} (ND SF RF : Z -> Prop) (who : Z -> Z) (e : ev K) : Prop :=
  match e with
  | SenderGets i g _ => ND i /\ RF g
  | ReceiverGets j f _ => ND j /\ SF f
  | NewSender i f _ _ | EndSender i f | AnnounceSender i f => ND i /\ SF f /\ who f = i
  | NewReceiver j g _ _ | AnnounceReceiver j g => ND j /\ RF g /\ who g = j
  | Flush i => ND i
  | Deliver j _ => ND j
  end.
(** each intent of a sender has one key, however often it is made *)
Definition one_key {K} (h : list (ev K)) : Prop :=
  forall i f r w i' r' w', In (NewSender i f r w) h -> In (NewSender i' f r' w') h -> w = w'.
(** nodes have a key pair and intents of their own *)
Definition set_up (ND SF RF : Z -> Prop) (pub : Z -> Z) (nodes : Z -> Z * Z) (who cs cr : Z -> Z) : Prop :=
  (forall n, snd (nodes n) = pub (fst (nodes n))) /\ forall i, ND i -> (SF (cs i) /\ who (cs i) = i) /\ (RF (cr i) /\ who (cr i) = i).
(** random keys: the key of an intent of a sender is no other key *)
Record fresh_keys {K} (half : Z -> Z -> bool -> K) (h : list (ev K)) : Prop := {
  fk_half : forall k, (exists i f o, In (NewSender i f k o) h \/ In (NewSender i f o k) h \/ In (NewReceiver i f k o) h \/ In (NewReceiver i f o k) h) -> forall c s d, k <> half c s d;
  fk_own : forall i f r w i' f' r' w', In (NewSender i f r w) h -> In (NewSender i' f' r' w') h -> w <> r' /\ (w = w' -> f = f');
  fk_recv : forall i f r w j g r' w', In (NewSender i f r w) h -> In (NewReceiver j g r' w') h -> w <> r' /\ w <> w' }.

(** the sending end of a channel at a node has key [k] to encrypt what is addressed to [id]; the receiving end has [k] to decrypt it *)
Definition encrypts {K} (y : sys K) (i id : Z) (k : K) : Prop := exists e, find id (c_tree (y_send y i)) = Some e /\ s_write (e_keys e) = Some k.
Definition decrypts {K} (y : sys K) (j id : Z) (k : K) : Prop := exists e, find id (c_tree (y_recv y j)) = Some e /\ s_read (e_keys e) = Some k.
(** some end of the channel at node [n] has key [k] *)
Definition has_key {K} (y : sys K) (n : Z) (k : K) : Prop :=
  exists id e, (find id (c_tree (y_send y n)) = Some e \/ find id (c_tree (y_recv y n)) = Some e) /\ (s_read (e_keys e) = Some k \/ s_write (e_keys e) = Some k).
(** the receiver at node [j] was told of the intents and can take key messages from the sender with intent [f] *)
Definition ready {K} (y : sys K) (j f g : Z) : Prop := find (Z.lxor f g) (c_tree (y_recv y j)) <> None.
(** how often the sender of node [i] encrypts and sends what waits *)
Definition flushes {K} (i : Z) (h : list (ev K)) : nat := length (filter (fun e => match e with Flush n => n =? i | _ => false end) h).
