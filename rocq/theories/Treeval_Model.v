(** Values of trees (np_treeval), their sizes and their encoding: src/util/np_treeval.c and
    src/util/s11n_impl/np_serialize_qcbor.c with NP_USE_QCBOR and x64.  The limit of QCBOR on the nesting of maps is not
    modelled. *)
From Verif Require Import Base Dhkey_Model Rbtree_Model Tree_Model Cbor_Model.

(** The kinds of trees inside values: np_treeval_type_jrb_tree, _cwt, _cose_signed, _cose_encrypted *)
Inductive wrapping := Plain | Cwt | Signed | Encrypted.

(** np_treeval.h:54-152.  A nested tree is given by its entries in the order of iteration, a double by its rank (see
    [ukey]).  Strings are given without the terminating zero; [size] is their length.
    [VOther ty]: a type that is not written (arrays of floats and characters, pointers, uuids, undefined, ...). *)
Inductive tval :=
| VShort (z : Z) | VInt (z : Z) | VLong (z : Z) | VLongLong (z : Z)
| VUshort (z : Z) | VUint (z : Z) | VUlong (z : Z) | VUlongLong (z : Z)
| VStr (s : list Z) | VChar (c : Z)
| VFloat (bits : Z) | VDouble (d : option Z)
| VUint2 (a b : Z)
| VBin (b : list Z) | VHash (b : list Z)
| VDhkey (k : Dhkey_Model.key)
| VTree (w : wrapping) (l : list (ukey * tval))
| VOther (ty : Z).

(** *** Sizes *)
(** np_treeval.c:742-745 and the like: what the argument of a head adds *)
Definition extra8 (a : Z) : Z := if a >=? 24 then 1 else 0.
Definition extra16 (a : Z) : Z := if a >? 255 then 2 else extra8 a.
Definition extra32 (a : Z) : Z := if a >? 65535 then 4 else extra16 a.
Definition extra64 (a : Z) : Z := if a >? 4294967295 then 8 else extra32 a.

(** [x > 0 ? x : -x] converted to uint64_t.  The negation of the smallest int32_t or int64_t is undefined; here it wraps. *)
Definition absolute (bits : Z) (x : Z) : Z :=
  let a := if x >? 0 then x else - x in
  if a >=? 2 ^ (bits - 1) then u64 (a - 2 ^ bits) else a.

Definition sum_sizes {A} (f : A -> Z) (l : list A) : Z := fold_right (fun x s => f x + s) 0 l.

(** np_treeval.c:722-728, 751-760, 778-784, 835-840, 871: the sizes of keys (np_treeval_get_byte_size(node->key)) *)
Definition key_bytes (u : ukey) : Z :=
  match u with
  | UStr s => 1 + extra64 (Z.of_nat (length s)) + Z.of_nat (length s)
  | UInt i => 4 + extra16 (if i >? 0 then i else - i)
  | UDbl _ => 9
  | UUlong i => 4 + extra32 i
  | UDhkey _ => 44
  | UUuid _ => 0
  end.

(** np_treeval.c:623-879 np_treeval_get_byte_size, QCBOR branch.  Line 775: an unsigned int is read through the signed
    member of the union. *)
Fixpoint val_bytes (v : tval) : Z :=
  match v with
  | VShort z => 4 + extra8 (if z >? 0 then z else - z)
  | VInt z => 4 + extra16 (if z >? 0 then z else - z)
  | VLong z => 4 + extra32 (absolute 32 z)
  | VLongLong z => 4 + extra64 (absolute 64 z)
  | VFloat _ => 5
  | VDouble _ => 9
  | VStr s => extra64 (Z.of_nat (length s)) + 1 + Z.of_nat (length s)
  | VChar _ => 2
  | VUshort z => 4 + extra8 z
  | VUint z => 4 + extra16 (s16 z)
  | VUlong z => 4 + extra32 z
  | VUlongLong z => 4 + extra64 z
  | VUint2 a b => extra16 a + extra16 b + 6
  | VBin b => extra32 (Z.of_nat (length b)) + 1 + Z.of_nat (length b)
  | VHash b => 5 + Z.of_nat (length b)
  | VDhkey _ => 44
  | VTree w l =>
      let bytes := sum_sizes (fun e => key_bytes (fst e) + val_bytes (snd e)) l in
      (match w with Plain => 0 | _ => 3 end) + extra64 (Z.of_nat (length l)) + 4 + bytes
  | VOther _ => 0
  end.
(** The sizes of unsupported types (np_treeval.c:764-766, 805-816: 2 for unsigned char, 9 for the others) are left out: nothing is
    written for them. *)

(** *** Writing *)
(** include/np_settings.h NP_CBOR_REGISTRY_ENTRIES, np_treeval.h:54-85 *)
Definition reg (ty : Z) : Z := 31415 + ty.

(** The bits of a double, from its rank: sign and magnitude.  NaN has one representation here. *)
Definition double_bits (d : option Z) : Z :=
  match d with
  | None => 9221120237041090560
  | Some r => if r <? 0 then 9223372036854775808 - r else r
  end.
Definition double_rank (bits : Z) : option Z :=
  let m := bits mod 9223372036854775808 in
  if m >? 9218868437227405312 then None
  else Some (if bits >=? 9223372036854775808 then - m else m).

(** np_serialize_qcbor.c:76-122 *)
Definition enc_dhkey (k : Dhkey_Model.key) : list Z := enc_tag (reg 21) ++ head 4 8 ++ flat_map (head4 0) k.

(** np_serialize_qcbor.c:511-530: keys of other types are skipped *)
Definition write_key (u : ukey) : option (list Z) :=
  match u with
  | UInt i => Some (enc_tag (reg 2) ++ enc_int i)
  | UDhkey k => Some (enc_dhkey k)
  | UUlong i => Some (enc_tag (reg 12) ++ enc_int i)
  | UDbl d => Some (enc_double (double_bits d))
  | UStr s => Some (enc_text s)
  | UUuid _ => None
  end.

(** np_serialize_qcbor.c:478-494: CBOR_TAG_CWT 61, CBOR_TAG_COSE_SIGN 98, CBOR_TAG_COSE_ENCRYPT 96 *)
Definition wrap_tag (w : wrapping) : list Z :=
  match w with Plain => [] | Cwt => enc_tag 61 | Signed => enc_tag 98 | Encrypted => enc_tag 96 end.

(** np_serialize_qcbor.c:354-543 __np_tree_serialize_write_type.  [None]: a type that is not supported (lines 442-456 and
    536: a warning, and nothing is written). *)
Fixpoint write (v : tval) : option (list Z) :=
  match v with
  | VShort z => Some (enc_tag (reg 1) ++ enc_int z)
  | VInt z => Some (enc_tag (reg 2) ++ enc_int z)
  | VLong z => Some (enc_tag (reg 3) ++ enc_int z)
  | VLongLong z => Some (enc_tag (reg 4) ++ enc_int z)
  | VStr s => Some (enc_text s)
  | VChar c => Some (enc_text [c])
  | VFloat b => Some (enc_float b)
  | VDouble d => Some (enc_double (double_bits d))
  | VUshort z => Some (enc_tag (reg 10) ++ enc_int z)
  | VUint z => Some (enc_tag (reg 11) ++ enc_int z)
  | VUlong z => Some (enc_tag (reg 12) ++ enc_int z)
  | VUlongLong z => Some (enc_tag (reg 13) ++ enc_int z)
  | VUint2 a b => Some (enc_tag (reg 14) ++ head 4 2 ++ enc_int a ++ enc_int b)
  | VBin b => Some (enc_bytes b)
  | VDhkey k => Some (enc_dhkey k)
  | VHash b => Some (enc_tag (reg 23) ++ enc_bytes b)
  | VTree w l =>
      match (fix go (l : list (ukey * tval)) : option (Z * list Z) :=
               match l with
               | [] => Some (0, [])
               | (k, x) :: l' =>
                   match write_key k with
                   | None => go l'
                   | Some bk =>
                       match write x, go l' with
                       | Some bx, Some (n, bs) => Some (n + 1, bk ++ bx ++ bs)
                       | _, _ => None
                       end
                   end
               end) l with
      | Some (n, bs) => Some (wrap_tag w ++ enc_tag (reg 20) ++ head 5 n ++ bs)
      | None => None
      end
  | VOther _ => None
  end.

(** *** Reading *)
(** QCBOR_Int64ToUInt8 and the like: out of range leaves the zero of the initialisation *)
Definition in_range (lo hi z : Z) : Z := if (lo <=? z) && (z <=? hi) then z else 0.

(** np_serialize_qcbor.c:159-186: the tree key of a value that was read *)
Definition key_of_val (v : tval) : option ukey :=
  match v with
  | VInt i => Some (UInt i)
  | VDhkey k => Some (UDhkey k)
  | VUlong i => Some (UUlong i)
  | VDouble d => Some (UDbl d)
  | VStr s => Some (UStr s)
  | _ => None
  end.

(** Trees of values *)
Definition vtree := np_tree (V := tval).
Definition stored_bytes (k : tkey) : Z := key_bytes (key_back k).
Definition vinsert (u : ukey) (v : tval) (t : vtree) : outcome vtree :=
  np_tree_insert (VOther 0) stored_bytes val_bytes u v t.

(** np_serialize_qcbor.c:140-188: [n] pairs are read with [rd] and inserted *)
Fixpoint read_pairs (rd : list Z -> option (tval * list Z)) (n : nat) (t : vtree) (bs : list Z) : option (vtree * list Z) :=
  match n with
  | O => Some (t, bs)
  | S n' =>
      match rd bs with
      | None => None
      | Some (k, bs1) =>
          match rd bs1 with
          | None => None
          | Some (v, bs2) =>
              match key_of_val k with
              | None => read_pairs rd n' t bs2
              | Some u => match vinsert u v t with
                          | Ok t' => read_pairs rd n' t' bs2
                          | _ => None
                          end
              end
          end
      end
  end.

(** np_serialize_qcbor.c:40-74 *)
Fixpoint read_words (n : nat) (bs : list Z) : option (list Z * list Z) :=
  match n with
  | O => Some ([], bs)
  | S n' =>
      match next bs with
      | Some (_, IInt z, rest) =>
          match read_words n' rest with Some (l, rest') => Some (in_range 0 4294967295 z :: l, rest') | None => None end
      | _ => None
      end
  end.

(** np_serialize_qcbor.c:124-352 __np_tree_deserialize_read_type, at most [fuel] levels deep.  [None] is an error of the
    decoder (np_serializer_read_map then reports it), or input the model does not follow: text with a zero byte, words
    of a dhkey that are no integers. *)
Fixpoint read (fuel : nat) (bs : list Z) : option (tval * list Z) :=
  match fuel with
  | O => None
  | S fuel' =>
      match next bs with
      | None => None
      | Some (tags, it, rest) =>
          let tag0 := hd 0 tags in
          match it with
          | IMap n =>
              if tag0 =? reg 20 then
                match read_pairs (read fuel') (Z.to_nat n) np_tree_create rest with
                | Some (t, rest') =>
                    let tag1 := hd 0 (tl tags) in
                    let w := if tag1 =? 61 then Cwt else if tag1 =? 96 then Encrypted else if tag1 =? 98 then Signed else Plain in
                    Some (VTree w (entries t), rest')
                | None => None
                end
              else Some (VOther 0, rest)
          | IArray _ =>
              if tag0 =? reg 14 then
                match next rest with
                | Some (_, IInt a, rest1) =>
                    match next rest1 with
                    | Some (_, IInt b, rest2) => Some (VUint2 (in_range 0 65535 a) (in_range 0 65535 b), rest2)
                    | _ => None
                    end
                | _ => None
                end
              else if tag0 =? reg 21 then
                match read_words 8 rest with Some (k, rest') => Some (VDhkey k, rest') | None => None end
              else None
          | IText s =>
              match s with
              | [c] => Some (VChar c, rest)
              | _ => if existsb (Z.eqb 0) s then None else Some (VStr s, rest)
              end
          | IBytes b => Some (if tag0 =? reg 23 then VHash b else VBin b, rest)
          | IFloat b => Some (VFloat b, rest)
          | IDouble b => Some (VDouble (double_rank b), rest)
          | IInt _ | IUint64 _ =>
              (* the signed member of the union is converted *)
              let z := match it with IInt z => z | IUint64 z => z - 18446744073709551616 | _ => 0 end in
              Some (if tag0 =? reg 10 then VUshort (in_range 0 255 z)
                    else if tag0 =? reg 11 then VUint (in_range 0 65535 z)
                    else if tag0 =? reg 12 then VUlong (in_range 0 4294967295 z)
                    else if tag0 =? reg 13 then VUlongLong (in_range 0 9223372036854775807 z)
                    else if tag0 =? reg 1 then VShort (in_range (-128) 127 z)
                    else if tag0 =? reg 2 then VInt (in_range (-32768) 32767 z)
                    else if tag0 =? reg 3 then VLong (in_range (-2147483648) 2147483647 z)
                    else if tag0 =? reg 4 then VLongLong z
                    else VOther 0, rest)
          | IOther => None
          end
      end
  end.

(** np_serialize_qcbor.c:607-632 np_serializer_write_map, without the limit of the buffer *)
Definition np_serializer_write_map (t : vtree) : option (list Z) := write (VTree Plain (entries t)).

(** np_serialize_qcbor.c:545-599 np_serializer_read_map into an empty tree: the outermost map is inserted into it *)
Definition np_serializer_read_map (bs : list Z) : option (tval * list Z) := read (S (length bs)) bs.

(** np_tree.c:310-315 np_tree_get_byte_size: byte_size is the bookkeeping of the tree *)
Definition np_tree_get_byte_size (t : vtree) : Z := extra64 (count t) + 4 + bytes t.
