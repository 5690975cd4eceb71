(** What the user relies on: a payload of [size] bytes is cut into as few 900 byte pieces as hold it, and the
    pieces reassemble to the message. *)
From Verif Require Import Base Message_Model.

(** n pieces of [c] bytes are enough and one less would not be *)
Definition enough_pieces (size c n : Z) : Prop := size <= n * c /\ (0 < n -> (n - 1) * c < size).

(** a message as the sender builds it: the body fills [parts] chunks, two byte fields are two bytes *)
Definition well_formed (m : message) : Prop :=
  1 <= parts m <= 65535 /\ Z.of_nat (length (body m)) = parts m * 900 /\ 0 <= mac16 m < 65536 /\ 0 <= nonce16 m < 65536.
(** chunk numbers do not run over the two byte counter inside the mac *)
Definition no_id_wrap (m : message) : Prop := mac16 m + parts m <= 65536.
