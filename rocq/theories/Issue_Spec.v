(** What is expected of the tokens a node hands out. *)
From Verif Require Import Base Dhkey_Model Token_Model Token_Spec TokenData_Props.
From Verif Require Import Uuid_Model Data_Model Data_Spec Issue_Model.
From Coq Require Import String.
Local Open Scope string_scope.
Local Open Scope Z_scope.

(** The token as another node has it: without secret key, nothing verified yet (C76: the fields arrive as they are) *)
Definition received (t : token) : token :=
  mkTok (uuid t) (realm t) (issuer t) (subject t) (audience t) (issued_at t) (not_before t) (expires_at t) (attributes t) (attributes_signature t)
        (pk t) (repeat 0 64) (signature t) 0 (ttype t) 3 false false false false.
(** ... and after the authentication callback accepted it *)
Definition authenticated (t : token) : token := set_state (received t) 3.

(** The value of an attribute, [None]: there is none *)
Definition attribute (a k : list Z) : option datum :=
  match np_get_data a k with Done (np_data_ok, Some v) => Some v | _ => None end.
(** Bytes in use *)
Definition size (a : list Z) : Z := snd (np_get_data_size a).
(** The later one counts *)
Definition over (new old : option datum) : option datum := match new with Some v => Some v | None => old end.

(** Names neuropil itself uses in an intent of the identity with fingerprint [fp] *)
Definition reserved (fp k : list Z) : Prop :=
  In k [bin2hex fp; text "mep_type"; text "ack_mode"; text "max_threshold"; text "msg_threshold"; text "_np.partner_fp"].
(** The application's attributes are blocks that were written with np_set_data (C14), and use other names *)
Definition user_block (a : list Z) : Prop := written_block a.
Definition no_reserved (fp a : list Z) : Prop := forall k, reserved fp k -> attribute a k = None.

(** A private identity token with its own keys *)
Definition own_identity (C : crypto) (t : token) : Prop :=
  scope t = 1 /\ private_key_is_set t = true /\ pk t = pk_of C (sk t).

(** 32 bit numbers other than 24, see C15 *)
Definition number (z : Z) : Prop := 0 <= z <= 4294967295 /\ z <> 24.

(** Everything an intent needs: a private identity, the 10240 bytes for attributes, settings that can be stored, attributes of the
    application under other names, and room for all of them. *)
Definition ready (C : crypto) (me : token) (node_fp buf : list Z) (ch : channel) (cs : caches) : Prop :=
  own_identity C me /\ List.length buf = Z.to_nat 10240 /\ bytes32 node_fp /\
  number (ch_mep ch) /\ number (ch_ack ch) /\ number (ch_max ch) /\
  user_block (c_intent cs) /\ user_block (c_intent_msg cs) /\ user_block (c_intent_ident cs) /\
  no_reserved (fingerprint C me) (c_intent cs) /\ no_reserved (fingerprint C me) (c_intent_msg cs) /\ no_reserved (fingerprint C me) (c_intent_ident cs) /\
  size (c_intent cs) + size (c_intent_msg cs) + size (c_intent_ident cs) + 245 <= 10240.

(** An identity of a user, as np_new_identity and np_sign_identity leave it: keys that belong together, signed with them, room for the
    fingerprint of the node among the attributes *)
Definition good_identity (C : crypto) (fresh : token) (id : user_token) : Prop :=
  u_public_key id = pk_of C (u_secret_key id) /\ bytes32 (u_realm id) /\ bytes32 (u_issuer id) /\ bytes32 (u_audience id) /\
  user_block (u_attributes id) /\ size (u_attributes id) + 49 <= 10240 /\
  u_signature id = sign C (u_secret_key id) (hash C (hash_input (user4aaatoken fresh id))).
(** A node after np_new_context *)
Definition new_node (C : crypto) (x : node) : Prop :=
  x_running x = false /\ x_ident x = None /\ x_used x = [] /\ own_identity C (x_node x) /\ user_block (attributes (x_node x)) /\ size (attributes (x_node x)) + 49 <= 10240.
(** The token object made for the secret key *)
Definition object_for (fresh : token) (id : user_token) : Prop :=
  fresh_identity fresh /\ sk fresh = u_secret_key id /\ ttype fresh = 1.

(** A block with one attribute, as np_set_data leaves it *)
Definition only (a k : list Z) (v : datum) : Prop :=
  exists memory empty, List.length memory = Z.to_nat 10240 /\ np_init_datablock memory 10240 = Done (np_data_ok, empty) /\ good_key k /\ good_value v /\
    np_set_data empty k v = Done (np_data_ok, a).
Definition empty_block (a : list Z) : Prop := exists memory, List.length memory = Z.to_nat 10240 /\ np_init_datablock memory 10240 = Done (np_data_ok, a).
(** As [ready], with nothing said about room and the attributes of the application *)
Definition able (C : crypto) (me : token) (node_fp buf : list Z) (ch : channel) : Prop :=
  own_identity C me /\ List.length buf = Z.to_nat 10240 /\ bytes32 node_fp /\ number (ch_mep ch) /\ number (ch_ack ch) /\ number (ch_max ch).
