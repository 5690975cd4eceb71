(** Model of the tokens a node hands out and of the identity it uses: src/np_token_factory.c:80-311 (derived tokens), src/neuropil.c:497-520
    np_use_identity with src/np_legacy.c:363-376 _np_set_identity and src/core/np_comp_identity.c:37-64, 134-223, and
    src/core/np_comp_msgproperty.c:1335-1418 (renewal of the own intents).
    Token objects are those of Token_Model, attributes the data blocks of Data_Model.  Times are the 64 bit patterns of Token_Model; the sum of
    two doubles is given.  Not modelled: reference counts, logging, statistics, the duplicate filter, the keys derived for key exchange. *)
From Verif Require Import Base Dhkey_Model Token_Model TokenData_Props.
From Verif Require Import Uuid_Model Data_Model.
From Coq Require Import String.
Local Open Scope string_scope.
Local Open Scope Z_scope.

(** attributes[] of the token becomes [a] *)
Definition with_attributes (t : token) (a : list Z) : token := set_attr t a (attributes_signature t).

Section Crypto.
  Variable C : crypto.

  (** np_aaatoken.c:935-960 _np_aaatoken_update_attributes_signature, 962-995 __np_aaatoken_get_attributes_hash; [src]: the issuer_token,
      whose secret key signs *)
  Definition sign_attributes (src t : token) : run token :=
    if scope_private_available <? scope t then Aborts
    else match np_get_data_size (attributes t) with
         | (np_data_ok, n) => Done (set_attr t (attributes t) (sign C (sk src) (hash C (firstn (Z.to_nat n) (attributes t) ++ signature t))))
         | _ => Aborts
         end.
  (** np_aaatoken.c:658-692 _np_aaatoken_set_signature(self, NULL) *)
  Definition sign_token (src t : token) : run token :=
    if scope_private_available <? scope t then Aborts
    else sign_attributes src (set_sig t (sign C (sk src) (get_hash C t))).
  (** np_aaatoken.c:694-724 _np_aaatoken_set_signature(self, signee): an attribute under the fingerprint of the signee; the result of np_set_data
      is not looked at *)
  Definition sign_as_issuer (signee t : token) : run token :=
    if negb (private_key_is_set signee) then Aborts
    else if negb (if list_eq_dec Z.eq_dec (cstr 64 (bin2hex (fingerprint C signee))) (cstr 64 (issuer t)) then true else false) then Aborts
    else rbind (np_set_data (attributes t) (bin2hex (fingerprint C signee)) (DBin (pk signee ++ sign C (sk signee) (get_hash C t))))
           (fun r => Done (with_attributes t (snd r))).

  (** np_data_value written with ASSERT(np_ok == tmp) *)
  Definition must_set (k : list Z) (v : datum) (t : token) : run token :=
    rbind (np_set_data (attributes t) k v) (fun r =>
      match fst r with np_data_ok => Done (with_attributes t (snd r)) | _ => Aborts end).
  (** np_merge_data without a look at the result *)
  Definition may_merge (a : list Z) (t : token) : run token :=
    rbind (np_merge_data (attributes t) a) (fun r => Done (with_attributes t (snd r))).
  (** np_aaatoken.c:594-616 np_aaatoken_set_partner_fp *)
  Definition set_partner (src : token) (fp : list Z) (t : token) : run token :=
    rbind (must_set (text "_np.partner_fp") (DBin fp) t) (sign_attributes src).

  (** np_token_factory.c:80-160 __np_token_factory_derive to a token without the secret key ([u]: the new uuid) *)
  Definition derive (u : list Z) (source : token) : run token :=
    if negb (scope source <=? scope_private) then Aborts
    else Done (mkTok u (strncpy 255 (realm source)) (strncpy 65 (issuer source)) (strncpy 255 (subject source)) (strncpy 255 (audience source))
                (issued_at source) (not_before source) (expires_at source) (attributes source) (repeat 0 64)
                (pk source) (repeat 0 64) (repeat 0 64) (state source) (ttype source) scope_private_available false false false false).

  (** neuropil_attributes.c:24-27: what the application set for all identities, intents and both (with messages) *)
  Record caches := mkCaches { c_intent : list Z; c_intent_msg : list Z; c_intent_ident : list Z; c_ident : list Z; c_ident_msg : list Z }.

  (** np_token_factory.c:162-191 np_token_factory_get_public_ident_token: sent with a join *)
  Definition public_ident (u : list Z) (cs : caches) (source : token) : run token :=
    if negb (flag_cmp (ttype source) type_identity) then Aborts
    else rbind (derive u source) (fun t0 =>
      let t := mkTok (uuid source) (realm t0) (issuer t0) (subject t0) (audience t0) (issued_at t0) (not_before t0) (expires_at t0) (attributes t0)
                 (attributes_signature t0) (pk t0) (sk t0) (signature t0) (state t0) (ttype t0) (scope t0) (private_key_is_set t0) false false false in
      rbind (may_merge (c_ident cs) t) (fun t =>
      rbind (may_merge (c_ident_msg cs) t) (fun t =>
      rbind (may_merge (c_intent_ident cs) t) (fun t =>
      rbind (sign_token source t) (sign_attributes source))))).

  (** the settings of a channel that take part: subject as text, audience of a protected channel, mep_type, ack_mode, max_parallel *)
  Record channel := mkChannel { ch_subject : list Z; ch_audience : option (list Z); ch_mep : Z; ch_ack : Z; ch_max : Z }.
  (** np_token_factory.c:213-311 _np_token_factory_new_message_intent_token.  [me]: the identity of the node, [node]: the fingerprint of the node,
      [u], [now]: new uuid and time, [till] = now + intent_ttl, [buf]: the memory of the attributes *)
  Definition new_intent (me : token) (node u : list Z) (now till : Z) (buf : list Z) (ch : channel) (cs : caches) : run token :=
    rbind (derive u me) (fun t0 =>
    rbind (np_init_datablock buf attributes_bytes) (fun r =>
    let t := mkTok u (realm t0) (strncpy 65 (bin2hex (fingerprint C me))) (strncpy 255 (firstn 254 (ch_subject ch)))
               (match ch_audience ch with Some a => bin2hex a ++ skipn 64 (audience t0) | None => audience t0 end)
               (issued_at t0) now (if expires_at me <? till then expires_at me else till) (snd r) (attributes_signature t0)
               (pk t0) (sk t0) (signature t0) (state t0) type_message_intent (scope t0) (private_key_is_set t0) false false false in
    rbind (sign_token me t) (fun t =>
    rbind (sign_as_issuer me t) (fun t =>
    rbind (must_set (text "mep_type") (DUint (ch_mep ch)) t) (fun t =>
    rbind (must_set (text "ack_mode") (DUint (ch_ack ch)) t) (fun t =>
    rbind (must_set (text "max_threshold") (DUint (ch_max ch)) t) (fun t =>
    rbind (must_set (text "msg_threshold") (DUint 0) t) (fun t =>
    rbind (may_merge (c_intent cs) t) (fun t =>
    rbind (may_merge (c_intent_msg cs) t) (fun t =>
    rbind (may_merge (c_intent_ident cs) t) (fun t =>
    set_partner me node (set_state t (Z.lor AAA_AUTHORIZED (Z.lor AAA_AUTHENTICATED AAA_VALID)))))))))))))).

  (** np_comp_msgproperty.c:1387-1398: an intent that is still good gets the attributes of the channel; 1411-1415 and the next encoding
      (np_aaatoken.c:153-156) sign them *)
  Definition update_intent (me : token) (property_attributes : list Z) (t : token) : run token :=
    rbind (np_merge_data (attributes t) property_attributes) (fun r =>
      match fst r with np_data_ok => sign_attributes me (with_attributes t (snd r)) | _ => Aborts end).

  (** ** The identity of the node *)
  (** [x_ident]: None while context->my_identity is the node itself; [x_used]: fingerprints of the keys that were set up as an identity *)
  Record node := mkNode { x_running : bool; x_node : token; x_ident : option token; x_used : list (list Z) }.
  Definition used (x : node) (fp : list Z) : bool := existsb (fun f => if list_eq_dec Z.eq_dec f fp then true else false) (x_used x).
  (** np_comp_identity.c:134-223 __np_set_identity for an identity token with its secret key *)
  Definition set_identity (x : node) (t : token) : run node :=
    match x_ident x with
    | None =>
      rbind (set_partner t (fingerprint C (x_node x)) t) (fun t =>
      rbind (set_partner (x_node x) (fingerprint C t) (x_node x)) (fun n =>
      rbind (sign_attributes t t) (fun t =>
        Done (mkNode (x_running x) n (Some (set_state t (Z.lor AAA_VALID (Z.lor AAA_AUTHENTICATED AAA_AUTHORIZED)))) (fingerprint C t :: x_used x)))))
    | Some _ => rbind (sign_attributes t t) (fun t => Done (mkNode (x_running x) (x_node x) (x_ident x) (fingerprint C t :: x_used x)))
    end.
  (** neuropil.c:497-520 np_use_identity ([fresh]: the new token object made from the secret key).  np_ok 0, np_invalid_operation 6.
      np_key.c:200-203, np_comp_identity.c:37-64: the key takes the token if it is unused and the token has not expired *)
  Definition use_identity (now : Z) (fresh : token) (id : user_token) (x : node) : run (Z * node) :=
    if x_running x then Done (6, x)
    else rbind (sign_token (user4aaatoken fresh id) (user4aaatoken fresh id)) (fun t =>
      if used x (fingerprint C t) then Done (0, x)
      else if fst (is_valid C block_ops t (ttype t) now)
      then rbind (set_identity x t) (fun x' => Done (0, x'))
      else Done (0, x)).
  (** who issues the intents of the node *)
  Definition my_identity (x : node) : token := match x_ident x with Some t => t | None => x_node x end.
End Crypto.
