(** Vocabulary for reading and setting attributes (C103, C104). *)
From Verif Require Import Base Tree_Model Tree_Spec Cbor_Model Treeval_Model Treeval_Spec Wire_Model Data_Model Data_Spec Deliver_Model Deliver_Spec.

(** [a]: the attributes of a message as the callback of a receiver gets it, sent by [me] who set the attributes [w0] for messages, [w3] for
    messages and identities, [w4] for messages and intents *)
Definition delivered (me : list Z) (w0 w3 w4 : list (list Z * datum)) (a : list Z) : Prop :=
  exists cs junk data h tree bs rest body uuid subject from d,
    length me = 32%nat /\ caches_of w0 w3 w4 cs /\ Z.of_nat (length junk) = 10240 /\
    message_body me cs junk data = Done h /\ vrun h = Ok tree /\ np_serializer_write_map tree = Some bs /\
    np_serializer_read_map (bs ++ rest) = Some (VTree Plain body, rest) /\
    converted uuid subject body = Done (Some (mkMsg uuid subject from d a)).
(** one more attribute fits into a block with these *)
Definition room_for (k b : list Z) (ws : list (list Z * datum)) : Prop := bytes_needed (put k (DBin b) (content ws)) <= 10240.
(** the block of a token or channel after the writes [ws], with room in the number of keys *)
Definition block_of (ws : list (list Z * datum)) (k : list Z) (b : list Z) : Prop :=
  written ws b /\ Forall good_entry ws /\ few_keys ((k, DBin []) :: ws).
