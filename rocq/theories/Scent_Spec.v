(** What is expected of messages that tell who wants or offers a subject. *)
From Verif Require Import Base Dhkey_Model Bloom_Model Pheromone_Model Data_Model Out_Model Scent_Model.
Open Scope Z_scope.

(** times that occur: after the first second of 1970 and before the year 2242 *)
Definition clock (now : Z) : Prop := 2 ^ 1074 <= now <= 2 ^ 1107.
(** the number of rounds of the loop lies between 99 and 100 for each second between time stamp and now, and up to two more *)
Definition rounds (tstamp now : Z) (k : Z) : Prop :=
  99 * (now - tstamp) <= k * 2 ^ 1074 /\ (k - 1) * 2 ^ 1074 < 100 * Z.max 0 (now - tstamp) + 2 ^ 1074.
