(** What a user may expect of tokens, independent of how the checks are carried out. *)
From Verif Require Import Base Dhkey_Model Token_Model.

(** the token's own key signed its identity fields; and its attributes *)
Definition self_signed (C : crypto) (t : token) : Prop := verify C (signature t) (hash C (hash_input t)) (pk t) = true.
Definition attributes_signed (C : crypto) (A : attr_ops) (t : token) : Prop :=
  exists n, ad_size A (attributes t) = Some n /\
    verify C (attributes_signature t) (hash C (firstn (Z.to_nat n) (attributes t) ++ signature t)) (pk t) = true.
(** message counters of an intent token *)
Definition not_used_up (A : attr_ops) (t : token) : Prop :=
  exists mx ms, ad_get A (attributes t) k_max_threshold = Some mx /\ ad_get A (attributes t) k_msg_threshold = Some ms /\
    raw_u32 ms <= raw_u32 mx.
(** a "verified" mark stands for a verification that succeeds on the present content *)
Definition marks_true (C : crypto) (A : attr_ops) (t : token) : Prop :=
  (sig_ok t = true -> self_signed C t) /\ (attr_ok t = true -> attributes_signed C A t).

Definition acceptable (C : crypto) (A : attr_ops) (t : token) (expected now : Z) : Prop :=
  Z.land (ttype t) expected = expected /\ now <= expires_at t /\
  (scope t >= 3 -> self_signed C t /\ attributes_signed C A t) /\
  (Z.land (ttype t) type_message_intent = type_message_intent -> not_used_up A t).

(** laws of the parameters *)
Definition correct_scheme (C : crypto) : Prop :=
  (forall sk m, verify C (sign C sk m) m (pk_of C sk) = true) /\
  (forall sk, length (pk_of C sk) = 32%nat) /\ (forall sk m, length (sign C sk m) = 64%nat) /\
  (forall m, length (hash C m) = 32%nat /\ Forall (fun b => 0 <= b < 256) (hash C m)).
(** a freshly created identity object: private key present, nothing verified yet *)
Definition fresh_identity (t : token) : Prop :=
  private_key_is_set t = true /\ sig_ok t = false /\ attr_ok t = false /\ issuer_ok t = false.
Definition bytes32 (l : list Z) : Prop := length l = 32%nat /\ Forall (fun b => 0 <= b < 256) l.
(** for attribute blocks of some form [P]: a public key and signature stored under a fingerprint are found again *)
Definition attr_law (P : list Z -> Prop) (A : attr_ops) : Prop :=
  forall a id b a', P a -> bytes32 id -> length b = 96%nat -> ad_set A a (bin2hex id) (DBin b) = Some a' ->
    ad_get A a' (bin2hex id) = Some (DBin b) /\ exists n, ad_size A a' = Some n /\ n <= attributes_bytes.


(** a string buffer that holds nothing or the lower case hex form of a non zero id *)
Definition id_string (n : nat) (buf : list Z) : Prop :=
  cstr n buf = [] \/ exists id, bytes32 id /\ id <> zero_id /\ cstr n buf = bin2hex id.
