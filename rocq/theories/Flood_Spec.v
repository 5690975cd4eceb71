(** Where the trails of a network lead. *)
From Verif Require Import Base Dhkey_Model Pheromone_Model Pheromone_Spec Data_Model Out_Model Out_Spec Flood_Model.

(** node [k] knows that receivers of [s] are reached over [k'] *)
Definition edge (n : net) (s k k' : key) : Prop := exists w ks cur, n k = Some w /\ trail (w_table w) s true = Ok (ks, cur) /\ usable w ks k'.
Inductive path (n : net) (s : key) : key -> key -> Prop :=
| path_one k k' : edge n s k k' -> path n s k k'
| path_more k k' k'' : path n s k k' -> edge n s k' k'' -> path n s k k''.
(** all nodes are connected, know their own id, and have room in their job queues; no trail has more than [B] neighbours *)
Definition sound_net (n : net) (bucket : key -> Z) (s : key) (B : nat) : Prop :=
  forall k w, n k = Some w -> w_me w = k /\ w_connected w = true /\
    exists ks cur tb', trail (w_table w) s true = Ok (ks, cur) /\ 0 <= cur /\ proper w ks /\ enough_room w ks /\ (length ks <= B)%nat /\ exhale (w_table w) (bucket k) = Ok tb'.
(** every scheduled arrival is one of a packet under way *)
Fixpoint valid (n : net) (bucket : key -> Z) (ack : key) (sched : list (nat * bool)) (st : list parcel * list parcel) : Prop :=
  match sched with [] => True | (i, late) :: r => (i < length (fst st))%nat /\ valid n bucket ack r (arrive n bucket ack i late st) end.
Definition in_time (sched : list (nat * bool)) : Prop := Forall (fun x => snd x = false) sched.
(** all trails end at nodes of the network *)
Definition closed (n : net) (s : key) : Prop := forall k k', edge n s k k' -> n k' <> None.
(** however a packet comes to a node, there are [c] others to send it to *)
Definition branching (n : net) (s : key) (c : nat) : Prop :=
  forall k prev, n k <> None -> exists l, length l = c /\ NoDup l /\ Forall (fun k' => edge n s k k' /\ k' <> prev) l.
