(** What is expected of a message that leaves the node. *)
From Verif Require Import Base Dhkey_Model Pheromone_Model Out_Model.

(** the same message, one hop further *)
Definition one_further (m : message) : message := mkM (m_subject m) (m_audience m) (m_forwarded m) (m_hops m + 1) (m_rest m).
(** exactly one copy of [m] is handed over for each neighbour of which [P] holds *)
Definition handed_over (m : message) (P : key -> Prop) (cs : list copy) : Prop :=
  Forall (fun c => c_message c = m /\ c_target c = m_audience m) cs /\ NoDup (map c_hop cs) /\ forall k, In k (map c_hop cs) <-> P k.
(** the neighbours on the trail [ks] to which the node [w] can send: itself and forgotten keys are none *)
Definition usable (w : world) (ks : list key) (k : key) : Prop := In k ks /\ k <> w_me w /\ w_cache w k <> None.
(** keys that can be compared *)
Definition proper (w : world) (ks : list key) : Prop := wf_key (w_me w) /\ Forall wf_key ks /\ NoDup ks.
(** the job queue has a place for each of them *)
Definition enough_room (w : world) (ks : list key) : Prop := (length ks <= w_room w)%nat.
