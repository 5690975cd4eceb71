(** What is expected of an announcement that comes in from a neighbour. *)
From Verif Require Import Base Dhkey_Model Pheromone_Model Out_Model.

(** the subjects of the announcements of receivers and of senders are two different ones *)
Definition two_subjects (avail_recv avail_send : key) : Prop := wf_key avail_recv /\ wf_key avail_send /\ avail_recv <> avail_send.
(** the message announces a receiver ([r]), or a sender, of [s] *)
Definition announces (avail_recv avail_send : key) (r : bool) (s : key) (m : message) : Prop :=
  m_subject m = (if r then avail_recv else avail_send) /\ m_audience m = s.
(** the announcement as it goes on *)
Definition passed_on (m : message) : message := mkM (m_subject m) (m_audience m) true (m_hops m + 1) (m_rest m).
