(** What a user of the identity framework relies on *)
From Verif Require Import Base Token_Model Cbor_Model Idfile_Model.

Definition byte_string (n : nat) (l : list Z) : Prop := length l = n /\ Forall (fun b => 0 <= b < 256) l.
Definition all_zero (l : list Z) : Prop := Forall (fun b => b = 0) l.

(** crypto_secretbox: a box opens with the nonce and the key it was made with, to what was put in; with another key it
    does not open; what opens has been made with that nonce and key; a box is 16 bytes longer than its content *)
Definition sound_box (B : box) : Prop :=
  (forall m n k, unseal B (seal B m n k) n k = Some m) /\
  (forall m n k k', byte_string 32 k -> byte_string 32 k' -> k' <> k -> unseal B (seal B m n k) n k' = None) /\
  (forall c n k m, unseal B c n k = Some m -> c = seal B m n k) /\
  (forall m n k, length (seal B m n k) = (length m + 16)%nat).

(** A pair of ed25519 keys as libsodium makes them: 64 bytes, of which the second half is the public key; neither the
    seed nor the public key is zero *)
Definition key_pair (sk pk : list Z) : Prop :=
  byte_string 64 sk /\ byte_string 32 pk /\ skipn 32 sk = pk /\ ~ all_zero pk /\ ~ all_zero (firstn 32 sk).

(** the token [t] with other keys *)
Definition carrying (t : user_token) (sk pk : list Z) : user_token :=
  mkUser (u_uuid t) (u_subject t) (u_issuer t) (u_realm t) (u_audience t) (u_issued_at t) (u_not_before t) (u_expires_at t)
         pk sk (u_signature t) (u_attributes t) (u_attributes_signature t).

(** a struct np_token: the sizes of its members; [n] bytes of its attributes are in use *)
Definition sized_token (A : attr_ops) (t : user_token) (n : Z) : Prop :=
  byte_string 16 (u_uuid t) /\ byte_string 255 (u_subject t) /\ byte_string 32 (u_issuer t) /\ byte_string 32 (u_realm t) /\
  byte_string 32 (u_audience t) /\ byte_string 32 (u_public_key t) /\ length (u_secret_key t) = 64%nat /\
  byte_string 64 (u_signature t) /\ Z.of_nat (length (u_attributes t)) = 10240 /\ byte_string 64 (u_attributes_signature t) /\
  0 <= u_issued_at t < 2 ^ 64 /\ 0 <= u_not_before t < 2 ^ 64 /\ 0 <= u_expires_at t < 2 ^ 64 /\
  ad_size A (u_attributes t) = Some n /\ 0 <= n <= 10240.
(** [t'] says of itself what [t] says: everything but the secret key *)
Definition same_public (n : Z) (t t' : user_token) : Prop :=
  u_uuid t' = u_uuid t /\ cstr 255 (u_subject t') = cstr 255 (u_subject t) /\ u_issuer t' = u_issuer t /\ u_realm t' = u_realm t /\
  u_audience t' = u_audience t /\ u_issued_at t' = u_issued_at t /\ u_not_before t' = u_not_before t /\ u_expires_at t' = u_expires_at t /\
  u_public_key t' = u_public_key t /\ u_signature t' = u_signature t /\ u_attributes_signature t' = u_attributes_signature t /\
  firstn (Z.to_nat n) (u_attributes t') = firstn (Z.to_nat n) (u_attributes t).

(** nothing in the way of writing the file [n] in directory [d] *)
Definition writable (p : proc) (d : nat) (n : fname) : Prop :=
  match files p d n with None => True | Some (_, w) => w = true \/ root p = true end.
(** [bs] contains [c] *)
Definition holds_piece (bs c : list Z) : Prop := exists a z, bs = a ++ c ++ z.
(** the file as another program may write it: an envelope with the nonce and content given *)
Definition envelope (nonce c : list Z) : list Z :=
  [208; 131; 64; 161; 6; 88; 24] ++ nonce ++ head 2 (Z.of_nat (length c)) ++ c.
