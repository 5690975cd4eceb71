(** What an attribute policy demands. *)
From Verif Require Import Base Dhkey_Model Bloom_Model Bloom_Spec Data_Model Data_Spec Attr_Model.

(** A required key, with a required value or any value *)
Definition requirement := (list Z * option (list Z))%type.
(** A data block made with np_init_datablock and np_set_data *)
Definition made_block (a : list Z) : Prop :=
  exists b0 n b1 ws rs, 21 <= n < 4294967296 /\ n <= Z.of_nat (length b0) /\ np_init_datablock b0 n = Done (np_data_ok, b1) /\
    Forall good_entry ws /\ few_keys ws /\ writes ws b1 = Done (rs, a).
(** A value as a sequence of bytes: text and binary data as they are, numbers as four bytes, least significant first *)
Definition content (v : datum) : list Z :=
  match v with
  | DBin b => b
  | DStr s => s
  | DInt z | DUint z => [z mod 256; z / 256 mod 256; z / 65536 mod 256; z / 16777216 mod 256]
  end.
(** What stands for a key: the hash of its name followed by ":required", of which the first 254 characters count *)
Definition key_id (hash : list Z -> key) (k : list Z) : key := hash (firstn 254 (k ++ [58; 114; 101; 113; 117; 105; 114; 101; 100])).
(** The attributes contain what is required *)
Definition meets (a : list Z) (r : requirement) : Prop :=
  exists v, np_get_data a (fst r) = Done (np_data_ok, Some v) /\ match snd r with Some w => content v = w | None => True end.
(** A policy: the calls of np_set_mxp_attr_policy_bin for a subject, one after the other *)
Fixpoint policy_of (hash : list Z -> key) (rs : list requirement) (p : option bloom) : outcome (option bloom) :=
  match rs with
  | [] => Ok p
  | (k, v) :: rs' => obind (require hash (Some p) k v) (fun p => match p with Some p => policy_of hash rs' p | None => UB end)
  end.
(** How much of the capacity of the filters (64 items) is used: by the policy, by the attributes *)
Definition policy_size (rs : list requirement) : Z := fold_right (fun r s => (match snd r with Some _ => 2 | None => 1 end) + s) 0 rs.
Definition attribute_size (a : list Z) : Z := 3 * snd (np_get_object_count a).
(** Everything that is hashed *)
Definition policy_items (hash : list Z -> key) (rs : list requirement) : list key :=
  flat_map (fun r => match snd r with Some w => [key_id hash (fst r); hash w] | None => [key_id hash (fst r)] end) rs.
Definition carries (hash : list Z -> key) (a : list Z) (id : key) : Prop :=
  exists k v, np_get_data a k = Done (np_data_ok, Some v) /\ (id = key_id hash k \/ id = hash (content v)).
