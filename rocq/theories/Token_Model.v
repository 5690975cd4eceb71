(** Model of authentication tokens: src/np_aaatoken.c, the token part of src/np_token_factory.c and the
    user facing identity functions of src/neuropil.c.
    Cryptography (libsodium) and the attribute data block are parameters: every theorem holds for every choice
    of [crypto] and [attr_ops] that satisfies the laws it names.
    Not modelled: logging, reference counts, the curve25519 keys derived from the ed25519 keys, allocation failure. *)
From Verif Require Import Base Dhkey_Model.

(** libsodium: crypto_generichash (32 bytes), crypto_sign_detached, crypto_sign_verify_detached (true: 0), crypto_sign_ed25519_sk_to_pk *)
Record crypto := mkCrypto {
  hash : list Z -> list Z;
  sign : list Z -> list Z -> list Z;
  verify : list Z -> list Z -> list Z -> bool;
  pk_of : list Z -> list Z }.

(** include/neuropil_data.h: value of an attribute.  [DBin]: the bytes the bin pointer of the union points to
    and how many of them belong to the value; [DUint]: the 32 bit number; [DOther]: anything else, with the low 32 bits of the union. *)
Inductive dvalue := DBin (b : list Z) | DUint (n : Z) | DOther (low32 : Z).
(** src/neuropil_data.c: np_get_data_size, np_get_data, np_set_data on the attribute bytes ([None]: not np_ok) *)
Record attr_ops := mkAttr {
  ad_size : list Z -> option Z;
  ad_get : list Z -> list Z -> option dvalue;
  ad_set : list Z -> list Z -> dvalue -> option (list Z) }.

(** C strings in fixed size buffers: strnlen(buf, n) bytes of buf; strncpy(dest, src, n) *)
Fixpoint until0 (l : list Z) : list Z := match l with [] => [] | c :: l' => if c =? 0 then [] else c :: until0 l' end.
Definition cstr (n : nat) (buf : list Z) : list Z := until0 (firstn n buf).
Definition strncpy (n : nat) (src : list Z) : list Z := let c := cstr n src in c ++ repeat 0 (n - length c).

(** include/np_aaatoken.h:148-207.  Times are non negative finite doubles, represented by their 64 bit patterns
    (for these the numeric order is the order of the patterns). *)
Record token := mkTok {
  uuid : list Z; realm : list Z; issuer : list Z; subject : list Z; audience : list Z;
  issued_at : Z; not_before : Z; expires_at : Z;
  attributes : list Z; attributes_signature : list Z;
  pk : list Z; sk : list Z; signature : list Z;
  state : Z; ttype : Z; scope : Z; private_key_is_set : bool;
  sig_ok : bool; attr_ok : bool; issuer_ok : bool }.

(** include/np_aaatoken.h:52-98 *)
Definition AAA_VALID := 1.
Definition AAA_AUTHENTICATED := 2.
Definition AAA_AUTHORIZED := 4.
Definition type_undefined := 0.
Definition type_identity := 1.
Definition type_node := 2.
Definition type_handshake := 4.
Definition type_message_intent := 16.
Definition type_accounting := 32.
Definition scope_private := 1.
Definition scope_private_available := 2.
Definition scope_public := 3.
Definition flag_cmp (data flag : Z) : bool := Z.land data flag =? flag.
Definition is_valid_state (s : Z) : bool := Z.land AAA_VALID s =? AAA_VALID.
Definition is_authenticated (s : Z) : bool := Z.land AAA_AUTHENTICATED s =? AAA_AUTHENTICATED.

Definition set_state (t : token) (s : Z) := mkTok (uuid t) (realm t) (issuer t) (subject t) (audience t) (issued_at t) (not_before t) (expires_at t) (attributes t) (attributes_signature t) (pk t) (sk t) (signature t) s (ttype t) (scope t) (private_key_is_set t) (sig_ok t) (attr_ok t) (issuer_ok t).
Definition set_flags (t : token) (a b c : bool) := mkTok (uuid t) (realm t) (issuer t) (subject t) (audience t) (issued_at t) (not_before t) (expires_at t) (attributes t) (attributes_signature t) (pk t) (sk t) (signature t) (state t) (ttype t) (scope t) (private_key_is_set t) a b c.
Definition set_sig (t : token) (s : list Z) := mkTok (uuid t) (realm t) (issuer t) (subject t) (audience t) (issued_at t) (not_before t) (expires_at t) (attributes t) (attributes_signature t) (pk t) (sk t) s (state t) (ttype t) (scope t) (private_key_is_set t) (sig_ok t) (attr_ok t) (issuer_ok t).
Definition set_attr (t : token) (a s : list Z) := mkTok (uuid t) (realm t) (issuer t) (subject t) (audience t) (issued_at t) (not_before t) (expires_at t) a s (pk t) (sk t) (signature t) (state t) (ttype t) (scope t) (private_key_is_set t) (sig_ok t) (attr_ok t) (issuer_ok t).
Definition set_scope (t : token) (s : Z) := mkTok (uuid t) (realm t) (issuer t) (subject t) (audience t) (issued_at t) (not_before t) (expires_at t) (attributes t) (attributes_signature t) (pk t) (sk t) (signature t) (state t) (ttype t) s (private_key_is_set t) (sig_ok t) (attr_ok t) (issuer_ok t).

(** the 8 bytes of a double, little endian *)
Fixpoint le_bytes (n : nat) (x : Z) : list Z := match n with O => [] | S n' => x mod 256 :: le_bytes n' (x / 256) end.

(** src/np_aaatoken.c:526-578 _np_aaatoken_get_hash: the bytes fed to the hash, in order (the type is commented out in C) *)
Definition hash_input (t : token) : list Z :=
  uuid t ++ cstr 255 (realm t) ++ cstr 65 (issuer t) ++ cstr 255 (subject t) ++ cstr 255 (audience t) ++ pk t ++
  le_bytes 8 (expires_at t) ++ le_bytes 8 (issued_at t) ++ le_bytes 8 (not_before t).

Section Ops.
  Variable C : crypto.
  Variable A : attr_ops.

  Definition get_hash (t : token) : list Z := hash C (hash_input t).
  (** src/np_aaatoken.c:962-995 __np_aaatoken_get_attributes_hash (aborts when the block has no valid size) *)
  Definition attributes_hash (t : token) : outcome (list Z) :=
    match ad_size A (attributes t) with
    | Some n => Ok (hash C (firstn (Z.to_nat n) (attributes t) ++ signature t))
    | None => Abort
    end.
  (** src/np_aaatoken.c:274-308 np_aaatoken_get_fingerprint(self, false): the 32 bytes of the key *)
  Definition fingerprint (t : token) : list Z := hash C (get_hash t ++ signature t).

  (** src/np_aaatoken.c:310-519 _np_aaatoken_is_valid, on a token pointer that is not NULL *)
  Definition invalid (t : token) : bool * token := (false, set_state t (Z.land (state t) (Z.lnot AAA_VALID))).
  Definition raw_u32 (v : dvalue) : Z := match v with DUint n => u32 n | DBin _ => 0 | DOther n => u32 n end.
  (** keys of the two thresholds: "max_threshold", "msg_threshold" *)
  Definition k_max_threshold : list Z := [109;97;120;95;116;104;114;101;115;104;111;108;100].
  Definition k_msg_threshold : list Z := [109;115;103;95;116;104;114;101;115;104;111;108;100].
  (** signature over the attributes verifies; simplified: [raw_u32] of a bin value is an arbitrary pointer, taken as 0 *)
  Definition check_attr_sig (t : token) : bool :=
    match attributes_hash t with Ok h => verify C (attributes_signature t) h (pk t) | _ => false end.
  Definition check_intent (t : token) : bool :=
    match ad_get A (attributes t) k_max_threshold, ad_get A (attributes t) k_msg_threshold with
    | Some mx, Some ms => (0 <=? raw_u32 ms) && (raw_u32 ms <=? raw_u32 mx)
    | _, _ => false
    end.
  Definition is_valid (t : token) (expected now : Z) : bool * token :=
    if negb (flag_cmp (ttype t) expected) then invalid t
    else if expires_at t <? now then invalid t
    else
      let t1 := if (scope_private_available <? scope t) && negb (sig_ok t)
                then if verify C (signature t) (get_hash t) (pk t) then Some (set_flags t true (attr_ok t) (issuer_ok t)) else None
                else Some t in
      match t1 with
      | None => invalid t
      | Some t1 =>
          let t2 := if (scope_private_available <? scope t) && negb (attr_ok t1)
                    then if check_attr_sig t1 then Some (set_flags t1 (sig_ok t1) true (issuer_ok t1)) else None
                    else Some t1 in
          match t2 with
          | None => invalid t1
          | Some t2 =>
              if flag_cmp (ttype t) type_message_intent && negb (check_intent t2) then invalid t2
              else (true, set_state t2 (Z.lor (state t2) AAA_VALID))
          end
      end.

  (** src/np_aaatoken.c:746-933 _np_aaatoken_verify_signature.  [Ok true]: np_ok.  The attribute is read through the
      bin pointer without looking at its type or size: undefined unless it is a value of at least 96 bytes. *)
  Definition verify_signature (t : token) (signee : option token) : outcome (bool * token) :=
    let t1 := if negb (sig_ok t)
              then if verify C (signature t) (get_hash t) (pk t) then Some (set_flags t true (attr_ok t) (issuer_ok t)) else None
              else Some t in
    match t1 with
    | None => Ok (invalid t)
    | Some t1 =>
        let t2 := if negb (attr_ok t1)
                  then if check_attr_sig t1 then Some (set_flags t1 (sig_ok t1) true (issuer_ok t1)) else None
                  else Some t1 in
        match t2 with
        | None => Ok (invalid t1)
        | Some t2 =>
            match signee with
            | None => if forallb (Z.eqb 0) (firstn 32 (issuer t2)) then Ok (true, t2) else Ok (invalid t2)
            | Some s =>
                if issuer_ok t2 then Ok (true, t2)
                else if negb (if list_eq_dec Z.eq_dec (key_bytes (np_dhkey_create_from_hash (cstr 64 (issuer t2)))) (fingerprint s) then true else false)
                then Ok (invalid t2)
                else if negb (is_valid_state (state s)) || negb (is_authenticated (state s)) then Ok (invalid t2)
                else match ad_get A (attributes t2) (cstr 65 (issuer t2)) with
                     | None => Ok (invalid t2)
                     | Some (DBin b) =>
                         if (length b <? 96)%nat then UB
                         else if verify C (firstn 64 (skipn 32 b)) (get_hash t2) (firstn 32 b)
                         then Ok (true, set_flags t2 (sig_ok t2) (attr_ok t2) true)
                         else Ok (invalid t2)
                     | Some _ => UB
                     end
            end
        end
    end.

  (** src/np_aaatoken.c:935-960 _np_aaatoken_update_attributes_signature with issuer_token = self *)
  Definition update_attributes_signature (t : token) : outcome token :=
    if scope_private_available <? scope t then Abort
    else obind (attributes_hash t) (fun h => Ok (set_attr t (attributes t) (sign C (sk t) h))).
  (** src/np_aaatoken.c:658-744 _np_aaatoken_set_signature(self, NULL) with issuer_token = self *)
  Definition set_signature (t : token) : outcome token :=
    if scope_private_available <? scope t then Abort
    else update_attributes_signature (set_sig t (sign C (sk t) (get_hash t))).
  (** src/np_aaatoken.c:658-744 _np_aaatoken_set_signature(self, signee).  The result of np_set_data is not looked at. *)
  Definition set_issuer_signature (t signee : token) : outcome token :=
    if negb (private_key_is_set signee) then Abort
    else if negb (if list_eq_dec Z.eq_dec (cstr 64 (bin2hex (fingerprint signee))) (cstr 64 (issuer t)) then true else false) then Abort
    else let pubsig := pk signee ++ sign C (sk signee) (get_hash t) in
         match ad_set A (attributes t) (bin2hex (fingerprint signee)) (DBin pubsig) with
         | Some a => Ok (set_attr t a (attributes_signature t))
         | None => Ok t
         end.
End Ops.

(** include/neuropil.h:170-183 *)
Record user_token := mkUser {
  u_uuid : list Z; u_subject : list Z; u_issuer : list Z; u_realm : list Z; u_audience : list Z;
  u_issued_at : Z; u_not_before : Z; u_expires_at : Z;
  u_public_key : list Z; u_secret_key : list Z; u_signature : list Z;
  u_attributes : list Z; u_attributes_signature : list Z }.
Definition attributes_bytes : Z := 10240.

(** hex string in a char buffer to 32 bytes (np_dhkey_create_from_hash + memcpy), 32 bytes to a char buffer (np_id_str) *)
Definition id_of_str (buf : list Z) : list Z := key_bytes (np_dhkey_create_from_hash (cstr 64 buf)).
Definition zero_id : list Z := repeat 0 32.
(** src/np_aaatoken.c:1122-1139: a zero id clears the first 32 bytes, any other is written as 64 hex digits and a terminator *)
Definition str_of_id (old id : list Z) : list Z :=
  if list_eq_dec Z.eq_dec id zero_id then repeat 0 32 ++ skipn 32 old
  else bin2hex id ++ [0] ++ skipn 65 old.

(** src/np_aaatoken.c:1059-1110 np_aaatoken4user; [old]: previous content of the destination *)
Definition aaatoken4user (A : attr_ops) (old : user_token) (src : token) (include_secret : bool) : user_token :=
  mkUser (uuid src) (strncpy 255 (subject src)) (id_of_str (issuer src)) (id_of_str (realm src)) (id_of_str (audience src))
         (issued_at src) (not_before src) (expires_at src) (pk src)
         (if include_secret && private_key_is_set src then sk src else u_secret_key old)
         (signature src)
         (match ad_size A (attributes src) with Some n => if n <=? attributes_bytes then attributes src else u_attributes old | None => u_attributes old end)
         (attributes_signature src).
(** src/np_aaatoken.c:1112-1163 np_user4aaatoken; [old]: previous content of the destination *)
Definition user4aaatoken (old : token) (src : user_token) : token :=
  mkTok (u_uuid src) (str_of_id (realm old) (u_realm src)) (str_of_id (issuer old) (u_issuer src)) (strncpy 255 (u_subject src))
        (str_of_id (audience old) (u_audience src)) (u_issued_at src) (u_not_before src) (u_expires_at src)
        (u_attributes src) (u_attributes_signature src) (u_public_key src) (sk old) (u_signature src)
        (state old) (ttype old) (if private_key_is_set old then scope_private else scope_public) (private_key_is_set old)
        (sig_ok old) (attr_ok old) (issuer_ok old).

Section Api.
  Variable C : crypto.
  Variable A : attr_ops.
  (** src/np_aaatoken.c:49-107 and src/np_token_factory.c:43-78, 462-515: a new token object, before it is signed.
      [r]: the realm name of the context, [u] a fresh uuid, [now] the clock, [a] the attributes of a fresh token. *)
  Definition blank (u : list Z) (now exp : Z) (a : list Z) : token :=
    mkTok u (repeat 0 255) (repeat 0 65) (repeat 0 255) (repeat 0 255) now now exp a (repeat 0 64) (repeat 0 32) (repeat 0 64) (repeat 0 64)
          0 type_undefined 4 false false false false.
  Definition new_identity_unsigned (r u subj secret : list Z) (now exp : Z) (a : list Z) : token :=
    mkTok u (strncpy 255 r) (repeat 0 65) (strncpy 255 subj) (repeat 0 255) now now exp a (repeat 0 64) (pk_of C secret) secret (repeat 0 64)
          0 type_identity scope_private true false false false.
  (** src/np_token_factory.c:433-485 np_token_factory_new_identity_token *)
  Definition new_identity_token (r u subj secret : list Z) (now exp : Z) (a : list Z) : outcome token :=
    obind (set_signature C A (new_identity_unsigned r u subj secret now exp a)) (fun t => update_attributes_signature C A t).
  Definition empty_user : user_token := mkUser (repeat 0 16) (repeat 0 255) zero_id zero_id zero_id 0 0 0 (repeat 0 32) (repeat 0 64) (repeat 0 64) (repeat 0 (Z.to_nat attributes_bytes)) (repeat 0 64).
  (** src/neuropil.c:309-331 np_new_identity *)
  Definition np_new_identity (r u subj secret : list Z) (now exp : Z) (a : list Z) : outcome user_token :=
    obind (new_identity_token r u subj secret now exp a) (fun t => Ok (aaatoken4user A empty_user t true)).
  (** src/neuropil.c:349-388 np_sign_identity(self_sign = true); [None]: np_invalid_argument.  The intermediate token
      is a fresh one ([fresh], built from the secret key) whose public parts are then overwritten. *)
  Definition np_sign_identity_self (fresh : list Z -> token) (id : user_token) : outcome (option user_token) :=
    if forallb (Z.eqb 0) (u_secret_key id) then Ok None
    else obind (set_signature C A (user4aaatoken (fresh (u_secret_key id)) id)) (fun t =>
         obind (update_attributes_signature C A t) (fun t => Ok (Some (aaatoken4user A id t true)))).
  (** src/neuropil.c:349-388 np_sign_identity(self_sign = false): signed by the identity [me] of the context *)
  Definition np_sign_identity_other (fresh : token) (me : token) (id : user_token) : outcome user_token :=
    obind (set_issuer_signature C A (user4aaatoken fresh id) me) (fun t => Ok (aaatoken4user A id t false)).
  (** src/neuropil.c:389-420 np_verify_issuer; the two fresh tokens are freshly generated identities *)
  Definition np_verify_issuer (fresh1 fresh2 : token) (id iss : user_token) : outcome bool :=
    let i := set_state (user4aaatoken fresh1 id) (Z.lor AAA_AUTHENTICATED AAA_VALID) in
    let s := set_state (user4aaatoken fresh2 iss) (Z.lor AAA_AUTHENTICATED AAA_VALID) in
    obind (verify_signature C A i (Some s)) (fun '(b, _) => Ok b).
  (** src/neuropil.c:422-449 np_token_fingerprint(include_attributes = false) *)
  Definition np_token_fingerprint (fresh : token) (id : user_token) : list Z := fingerprint C (user4aaatoken fresh id).
  (** src/neuropil.c:451-495 np_use_token up to the decision; [true]: np_ok *)
  Definition np_use_token (u : list Z) (now exp : Z) (a : list Z) (id : user_token) : bool :=
    let t := user4aaatoken (blank u now exp a) id in
    let '(v, t') := is_valid C A t (ttype t) now in
    if negb v then false
    else if (ttype t' =? type_identity) || (ttype t' =? type_node) then true
    else if ttype t' =? type_message_intent then true
    else if ttype t' =? type_accounting then true
    else false.
End Api.
