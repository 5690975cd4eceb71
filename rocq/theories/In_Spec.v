(** What a node may expect of the messages of the network: tokens arrive as they were sent, a message does not stop the
    node it is for, and nobody speaks for another. *)
From Verif Require Import Base Dhkey_Model Tree_Model Treeval_Model Treeval_Spec Wire_Model Data_Model Token_Model Token_Spec TokenData_Props In_Model.

Definition bytes_of (n : nat) (l : list Z) : Prop := length l = n /\ Forall (fun b => 0 <= b < 256) l.
(** a buffer of [n] bytes with a text in it that is not just one character *)
Definition text_in (n : nat) (buf : list Z) : Prop :=
  exists s, strncpy n s = buf /\ (length s < n)%nat /\ length s <> 1%nat /\ Forall (fun b => 1 <= b <= 255) s.
(** the part of the attributes that is in use *)
Definition used (t : token) : list Z := firstn (Z.to_nat (snd (np_get_data_size (attributes t)))) (attributes t).
Definition intact (a : list Z) : Prop := length a = Z.to_nat 10240 /\ exists n, np_get_data_size a = (np_data_ok, n) /\ 21 <= n <= 10240.
(** a token as it is in memory: fields of the size the structure has, times that are numbers *)
Definition a_time (x : Z) : Prop := 0 <= x <= 9218868437227405312.
Definition a_token (t : token) : Prop :=
  bytes_of 16 (uuid t) /\ bytes_of 32 (pk t) /\ bytes_of 64 (signature t) /\ length (attributes_signature t) = 64%nat /\
  text_in 255 (realm t) /\ text_in 65 (issuer t) /\ text_in 255 (subject t) /\ text_in 255 (audience t) /\
  0 <= ttype t <= 255 /\ a_time (expires_at t) /\ a_time (issued_at t) /\ a_time (not_before t) /\ intact (attributes t).
(** a token just made *)
Definition a_new_token (t : token) : Prop :=
  private_key_is_set t = false /\ length (attributes t) = Z.to_nat 10240 /\ length (attributes_signature t) = 64%nat /\ state t = 0 /\
  sig_ok t = false /\ attr_ok t = false.

(** All that others see of a token *)
Definition same_token (a b : token) : Prop :=
  uuid a = uuid b /\ realm a = realm b /\ issuer a = issuer b /\ subject a = subject b /\ audience a = audience b /\
  issued_at a = issued_at b /\ not_before a = not_before b /\ expires_at a = expires_at b /\ ttype a = ttype b /\
  pk a = pk b /\ signature a = signature b /\ attributes_signature a = attributes_signature b /\ used a = used b /\
  (forall k, np_get_data (attributes a) k = np_get_data (attributes b) k).
(** the owner of the token signed it *)
Definition signed_by_owner (C : crypto) (t : token) : Prop :=
  scope t <= 2 /\ pk t = pk_of C (sk t) /\ signature t = sign C (sk t) (hash C (hash_input t)).
(** the counters of an intent *)
Definition counters_ok (t : token) : Prop :=
  Z.land (ttype t) 16 = 16 -> exists mx ms, np_get_data (attributes t) k_max_threshold = Done (np_data_ok, Some (Data_Model.DUint mx)) /\
    np_get_data (attributes t) k_msg_threshold = Done (np_data_ok, Some (Data_Model.DUint ms)) /\ 0 <= ms <= mx /\ mx < 4294967296.

(** A message as another node makes it.  An attribute block that can be read: every key is found or not, and the fingerprint
    of the partner has the size of a fingerprint *)
Definition readable (a : list Z) : Prop :=
  length a = Z.to_nat 10240 /\ (exists n, np_get_data_size a = (np_data_ok, n) /\ 21 <= n <= 10240) /\
  (forall k, exists v, np_get_data a k = Done (np_data_ok, Some v) \/ np_get_data a k = Done (np_key_not_found, None)) /\
  (forall v, np_get_data a k_partner = Done (np_data_ok, Some v) -> exists b, v = Data_Model.DBin b /\ length b = 32%nat).
(** each field that is there is of the kind and length it should be *)
Definition well_formed_token (l : list (ukey * tval)) : Prop :=
  (forall k n v, In (k, n) [(k_uuid, 16%nat); (k_public, 32%nat); (k_signature, 64%nat)] -> entry k l = Some v -> exists b, v = VBin b /\ length b = n) /\
  (forall k v, In k [k_realm; k_issuer; k_subject; k_audience] -> entry k l = Some v ->
     exists s, v = VStr s /\ (k = k_subject -> (2 <= length s)%nat /\ Forall (fun b => 1 <= b <= 255) s)) /\
  (forall v, entry k_extensions l = Some v -> exists a, readable a /\ v = VBin (firstn (Z.to_nat (snd (np_get_data_size a))) a)) /\
  (forall v, entry k_ext_signature l = Some v -> exists b, v = VBin b).
Definition well_formed (body : list (ukey * tval)) : Prop :=
  forall k v, In k [URN_NODE; URN_IDENTITY; URN_INTENT; URN_HANDSHAKE] -> entry k body = Some v -> exists w l, v = VTree w l /\ well_formed_token l.
(** a text that begins with 64 hex digits, as an id is written *)
Definition id_text (s : list Z) : Prop := (64 <= length s)%nat /\ Forall (fun c => 48 <= c <= 57 \/ 97 <= c <= 102 \/ 65 <= c <= 70) (firstn 64 s).
(** the token for [k] in the body has an id in the field [f], and the fields [must] *)
Definition names_id (k f : list Z) (must : list (list Z)) (body : list (ukey * tval)) : Prop :=
  exists w l s, entry k body = Some (VTree w l) /\ entry f l = Some (VStr s) /\ id_text s /\ forall m, In m must -> entry m l <> None.
Definition returns_ok {X} (o : outcome X) : Prop := exists x, o = Ok x.

(** the key in the token signed it and its attributes, and it is not expired *)
Definition vouched_for (C : crypto) (now : Z) (t : token) : Prop := self_signed C t /\ attributes_signed C block_ops t /\ now <= expires_at t.
(** the body of a message with one token in it *)
Definition with_token_of (C : crypto) (k : list Z) (t : token) (body : list (ukey * tval)) : Prop :=
  exists w t' h tree, encode C t = Ok (t', h) /\ vrun h = Ok tree /\ body = [(UStr k, VTree w (entries tree))].
(** the partner a token names: the one in its attributes, else its issuer, else itself.  "_np.partner_fp" *)
Definition names_partner (C : crypto) (t : token) (x : list Z) : Prop :=
  let key := [95; 110; 112; 46; 112; 97; 114; 116; 110; 101; 114; 95; 102; 112] in
  (np_get_data (attributes t) key = Done (np_data_ok, Some (Data_Model.DBin x)) /\ length x = 32%nat) \/
  ((exists v, np_get_data (attributes t) key = Done (np_key_not_found, v)) /\ ((hd 0 (issuer t) <> 0 /\ x = id_of_str (issuer t)) \/ (hd 0 (issuer t) = 0 /\ x = fingerprint C t))).
