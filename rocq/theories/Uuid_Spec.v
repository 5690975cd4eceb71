(** What is expected of ids: two of them are the same only if the hash function fails. *)
From Verif Require Import Base Uuid_Model.

(** the hash function maps two different inputs to the same output *)
Definition collision (H : list Z -> list Z) : Prop := exists x y, x <> y /\ H x = H y.

(** readings of the clock from 2004 to 2038 *)
Definition reading (t : Z) : Prop := 2 ^ 52 <= t < 2 ^ 53.

(** One id made: what for, by whom, and when. *)
Record made := mkMade { m_thing : thing; m_node : Z; m_time : Z }.
Definition id_of (H : list Z -> list Z) (m : made) : list Z := new_id H (m_thing m) (m_time m).
