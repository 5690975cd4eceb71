(** Attribute policies: src/neuropil_attributes.c and the use in src/core/np_comp_msgproperty.c.
    The hash function (np_dhkey.c:39-61, blake2b) is a parameter. *)
From Verif Require Import Base Dhkey_Model Bloom_Model Data_Model.

(** The bytes of a 32 bit number in memory (little endian) *)
Definition bytes4 (z : Z) : list Z := map (fun i => Z.land (Z.shiftr (u32 z) (8 * i)) 255) [0; 1; 2; 3].
(** neuropil_attributes.c:233-261: what is hashed for a value.  The sizes are those np_serializer_read_object sets
    (np_serialize_qcbor.c:693-712). *)
Definition value_bytes (v : datum) : list Z :=
  match v with DBin b => b | DStr s => s | DInt z => bytes4 z | DUint z => bytes4 z end.

Definition of_outcome {A} (x : outcome A) : run A := match x with Ok a => Done a | Abort => Aborts | UB => Undef end.

Section Policy.
  Variable hash : list Z -> key.
  (** np_dhkey.c:110-116 np_dhkey_create_from_hostport(key, "required"): snprintf cuts off after 254 characters *)
  Definition key_hash (k : list Z) : key := hash (firstn 254 (k ++ [58; 114; 101; 113; 117; 105; 114; 101; 100])).
  (** neuropil_attributes.c:201-205 _np_policy_set_key *)
  Definition policy_set_key (b : bloom) (k : list Z) : outcome bloom := nbf_add b (key_hash k).
  (** neuropil_attributes.c:207-215 _np_policy_set_bin *)
  Definition policy_set_bin (b : bloom) (k v : list Z) : outcome bloom :=
    obind (policy_set_key b k) (fun b => nbf_add b (hash v)).
  (** neuropil_attributes.c:232-273 __np_policy_classic_build_attribute_bloom: the key is added twice *)
  Definition build_attribute (b : outcome bloom) (k : list Z) (v : datum) : outcome bloom * bool :=
    (obind b (fun b => obind (policy_set_key b k) (fun b => policy_set_bin b k (value_bytes v))), true).
  (** neuropil_attributes.c:275-282 _np_attribute_build_bloom *)
  Definition attribute_build_bloom (attributes : list Z) : run (bool * bloom) :=
    rbind (np_iterate_data build_attribute attributes (Ok nbf_create)) (fun r =>
    rbind (of_outcome (snd r)) (fun b => Done (match fst r with np_data_ok => true | _ => false end, b))).
  (** neuropil_attributes.c:284-315 _np_policy_check_compliance; a missing policy is [None] *)
  Definition check_compliance (policy : option bloom) (attributes : list Z) : run bool :=
    match policy with
    | None => Done true
    | Some p =>
        rbind (of_outcome (nbf_cmp nbf_create p)) (fun c =>
        if c =? 0 then Done true
        else
          rbind (attribute_build_bloom attributes) (fun r =>
          if fst r then
            rbind (of_outcome (nbf_union nbf_create p)) (fun u =>
            rbind (of_outcome (nbf_intersect_ignore_age u (snd r))) (fun i =>
            rbind (of_outcome (nbf_cmp p (snd i))) (fun c => Done (c =? 0))))
          else Done false))
    end.

  (** neuropil_attributes.c:163-171 and 176-184: one direction of a subject, [None]: not configured.  A value that is
      missing is NULL. *)
  Definition require (property : option (option bloom)) (k : list Z) (v : option (list Z)) : outcome (option (option bloom)) :=
    match property with
    | None => Ok None
    | Some policy =>
        let b := match policy with None => nbf_create | Some b => b end in
        obind (match v with None => policy_set_key b k | Some v => policy_set_bin b k v end) (fun b => Ok (Some (Some b)))
    end.
  (** neuropil_attributes.c:149-199 np_set_mxp_attr_policy_bin; the result is true for np_data_ok, false for
      np_invalid_operation (line 189, whatever happened to the first property) *)
  Definition set_policy (inbound outbound : option (option bloom)) (k : list Z) (v : option (list Z)) : outcome (bool * option (option bloom) * option (option bloom)) :=
    obind (require inbound k v) (fun i => obind (require outbound k v) (fun o =>
    Ok (match outbound with Some _ => true | None => false end, i, o))).

  (** core/np_comp_msgproperty.c:2308-2316, in __np_property_handle_intent: whether the intent token of a peer is considered.
      [protected]: the audience type is NP_MX_AUD_PROTECTED, [audience] the audience field as a key. *)
  Definition intent_considered (policy : option bloom) (attributes : list Z) (protected : bool) (audience my_identity realm : key) : run bool :=
    rbind (check_compliance policy attributes) (fun ok =>
    let audience_id := if protected then audience else repeat 0 8 in
    Done (ok && (np_dhkey_equal my_identity audience_id || np_dhkey_equal realm audience_id))).
End Policy.
