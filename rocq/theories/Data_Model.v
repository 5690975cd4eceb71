(** Data blocks (attributes): src/neuropil_data.c and the data block part of
    src/util/s11n_impl/np_serialize_qcbor.c.
    A block is the memory given by the user, as a list of bytes.  Integers that cannot overflow for blocks of less than
    2^32 bytes are written without wrapping. *)
From Verif Require Import Base Cbor_Model Treeval_Model.

(** How a call ends.  [Hangs]: it never returns; [Aborts]: a failed assertion; [Undef]: memory outside of the block or of
    a buffer is touched. *)
Inductive run (A : Type) := Done (a : A) | Hangs | Aborts | Undef.
Arguments Done {A} a. Arguments Hangs {A}. Arguments Aborts {A}. Arguments Undef {A}.
Definition rbind {A B} (x : run A) (f : A -> run B) : run B :=
  match x with Done a => f a | Hangs => Hangs | Aborts => Aborts | Undef => Undef end.

(** include/neuropil_data.h:17-38 *)
Inductive rc := np_data_ok | np_key_not_found | np_insufficient_memory | np_invalid_structure | np_invalid_arguments
  | np_could_not_write_total_length | np_could_not_read_magicno | np_could_not_read_total_length
  | np_could_not_read_used_length | np_could_not_read_object_count | np_could_not_read_object | np_could_not_read_key.

(** include/neuropil_data.h:40-60: type, size and value; the size of a binary or string is the length of the list *)
Inductive datum := DBin (b : list Z) | DInt (z : Z) | DUint (z : Z) | DStr (s : list Z).

(** include/util/np_serialization.h:83-88 *)
Record hdr := mkHdr { h_total : Z; h_used : Z; h_count : Z }.

(** include/neuropil_data.h:15 *)
Definition NP_DATA_MAGIC_NO : Z := 22964591.
(** np_serialize_qcbor.c:761-771: the length of the header *)
Definition overhead : nat := 21.

(** An item that QCBOR_Int64ToUInt32 accepts *)
Definition get_u32 (bs : list Z) : option (Z * list Z) :=
  match next bs with
  | Some (_, IInt z, rest) => if (0 <=? z) && (z <=? 4294967295) then Some (z, rest) else None
  | _ => None
  end.

(** np_serialize_qcbor.c:774-833 np_serializer_read_datablock_header: the fields read so far are kept on failure *)
Definition read_header (b : list Z) : rc * hdr :=
  match next (firstn overhead b) with
  | Some (_, IArray n, b0) =>
      if n =? 4 then
        match get_u32 b0 with
        | Some (magic, b1) =>
            if magic =? NP_DATA_MAGIC_NO then
              match get_u32 b1 with
              | None => (np_could_not_read_total_length, mkHdr 0 0 0)
              | Some (total, b2) =>
                  match get_u32 b2 with
                  | None => (np_could_not_read_used_length, mkHdr total 0 0)
                  | Some (used, b3) =>
                      match get_u32 b3 with
                      | None => (np_could_not_read_object_count, mkHdr total used 0)
                      | Some (count, _) => (np_data_ok, mkHdr total used count)
                      end
                  end
              end
            else (np_could_not_read_magicno, mkHdr 0 0 0)
        | None => (np_could_not_read_magicno, mkHdr 0 0 0)
        end
      else (np_invalid_arguments, mkHdr 0 0 0)
  | _ => (np_invalid_arguments, mkHdr 0 0 0)
  end.

(** [new] written at offset [off] *)
Definition patch (b : list Z) (off : nat) (new : list Z) : list Z := firstn off b ++ new ++ skipn (off + length new) b.

(** np_serialize_qcbor.c:852-879: the bytes of a header *)
Definition header_bytes (h : hdr) : list Z :=
  head 4 4 ++ head 0 NP_DATA_MAGIC_NO ++ head4 0 (h_total h) ++ head4 0 (h_used h) ++ head4 0 (h_count h).

(** np_serialize_qcbor.c:836-889 np_serializer_write_datablock_header.  If the total length is below 21 the encoder fails;
    what it leaves in the block is not modelled. *)
Definition write_header (b : list Z) (h : hdr) : rc * list Z :=
  let '(b, h) := if h_used h =? 0 then (patch b 0 (repeat 0 (Z.to_nat (h_total h))), mkHdr (h_total h) (Z.of_nat overhead) (h_count h))
                 else (b, h) in
  if h_total h <? Z.of_nat overhead then (np_invalid_structure, b) else (np_data_ok, patch b 0 (header_bytes h)).

(** neuropil_data.c:18-25 np_init_datablock *)
Definition np_init_datablock (b : list Z) (len : Z) : run (rc * list Z) :=
  if len >? Z.of_nat (length b) then Undef else Done (write_header b (mkHdr len 0 0)).

(** np_serialize_qcbor.c:641-662: the pieces the encoder appends one after the other *)
Definition pieces (k : list Z) (v : datum) : list (list Z) :=
  [head 3 (Z.of_nat (length k)); k] ++
  match v with
  | DBin b => [head 2 (Z.of_nat (length b)); b]
  | DStr s => [head 3 (Z.of_nat (length s)); s]
  | DInt z => [enc_tag (reg 3); enc_int z]
  | DUint z => [enc_tag (reg 12); enc_int z]
  end.
Definition encode (k : list Z) (v : datum) : list Z := concat (pieces k v).

(** np_serialize_qcbor.c:634-671 np_serializer_write_object into [room] bytes: what is written, and whether all of it.  A
    piece that does not fit is not written, and nothing after it. *)
Fixpoint fit (room : nat) (ps : list (list Z)) : list Z * bool :=
  match ps with
  | [] => ([], true)
  | p :: ps' => if (length p <=? room)%nat then let (w, ok) := fit (room - length p) ps' in (p ++ w, ok) else ([], false)
  end.

(** What the size of a value adds: 24 is CBOR_TWENTY_FOUR (qcbor_common.h) *)
Definition size_extra (a : Z) : Z := if a >? 255 then 2 else if a >? 24 then 1 else 0.
Definition int_extra (a : Z) : Z := if a >? 65535 then 4 else size_extra a.

(** np_serialize_qcbor.c:891-938 np_serializer_calculate_object_size.  The negation of the smallest int32_t is undefined;
    theorems leave it out. *)
Definition object_size (k : list Z) (v : datum) : Z :=
  let key_size := Z.of_nat (length k) in
  1 + key_size + (if key_size >? 24 then 1 else 0) +
  match v with
  | DBin b => size_extra (Z.of_nat (length b)) + 1 + Z.of_nat (length b)
  | DStr s => size_extra (Z.of_nat (length s)) + 1 + Z.of_nat (length s)
  | DInt z => 4 + int_extra (if z >? 0 then z else - z)
  | DUint z => 4 + int_extra z
  end.

Fixpoint until_zero (l : list Z) : list Z := match l with [] => [] | c :: l' => if c =? 0 then [] else c :: until_zero l' end.

(** np_serialize_qcbor.c:673-731 np_serializer_read_object: key, value, number of bytes.
    [Undef]: a key longer than the key buffer, a key that is no string, or an integer out of range (the value of the
    previous object is delivered). *)
Definition read_object (bs : list Z) : run (rc * option (list Z * datum * nat)) :=
  match next bs with
  | None => Done (np_could_not_read_key, None)
  | Some (_, it, rest) =>
      match it with
      | IText s | IBytes s =>
          if (254 <? length s)%nat then Undef
          else
            let k := until_zero s in
            match next rest with
            | None => Done (np_could_not_read_object, None)
            | Some (tags, it', rest') =>
                let ok v := Done (np_data_ok, Some (k, v, (length bs - length rest')%nat)) in
                match it' with
                | IBytes b => ok (DBin b)
                | IText b => ok (DStr b)
                | IInt z =>
                    if hd 0 tags =? reg 3 then if (-2147483648 <=? z) && (z <=? 2147483647) then ok (DInt z) else Undef
                    else if hd 0 tags =? reg 12 then if (0 <=? z) && (z <=? 4294967295) then ok (DUint z) else Undef
                    else Done (np_invalid_arguments, None)
                | _ => Done (np_invalid_arguments, None)
                end
            end
      | _ => Undef
      end
  end.

Definition same (a b : list Z) : bool := if list_eq_dec Z.eq_dec a b then true else false.

(** np_serialize_qcbor.c:746-757: [n] objects left.  An object that cannot be read is tried again forever (line 747); a
    counter of 16 bits never reaches a larger number (line 740). *)
Fixpoint search_from (n : nat) (many : bool) (key : list Z) (start : nat) (area : list Z) : run (option (nat * nat * list Z * datum)) :=
  match n with
  | O => if many then Hangs else Done None
  | S n' =>
      rbind (read_object (skipn start area)) (fun r =>
      match r with
      | (np_data_ok, Some (k, v, len)) =>
          if same k key then Done (Some (start, (start + len)%nat, k, v))
          else search_from n' many key (start + len) area
      | _ => Hangs
      end)
  end.

(** np_serialize_qcbor.c:733-759 np_serializer_search_object *)
Definition search_object (b : list Z) (key : list Z) : run (option (nat * nat * list Z * datum)) :=
  if (length b <? overhead)%nat then Undef
  else
    let h := snd (read_header b) in
    if (h_used h >? Z.of_nat (length b)) || (h_count h >? 0) && (h_used h <? Z.of_nat overhead) then Undef
    else search_from (Z.to_nat (h_count h)) (h_count h >? 65535) key overhead (firstn (Z.to_nat (h_used h)) b).

(** neuropil_data.c:210-233 np_get_data *)
Definition np_get_data (b key : list Z) : run (rc * option datum) :=
  rbind (search_object b key) (fun r =>
  match r with
  | Some (_, _, _, v) => Done (np_data_ok, Some v)
  | None => Done (np_key_not_found, None)
  end).

(** neuropil_data.c:130-208 np_set_data *)
Definition np_set_data (b key : list Z) (v : datum) : run (rc * list Z) :=
  if (length b <? overhead)%nat then Undef
  else if (254 <? length key)%nat then Undef
  else
    match read_header b with
    | (np_data_ok, h) =>
        rbind (search_object b key) (fun found =>
        let old_size := match found with Some (_, _, k, w) => object_size k w | None => 0 end in
        let new_size := object_size key v in
        if new_size >? h_total h - h_used h + old_size then Done (np_insufficient_memory, b)
        else
          (* lines 181-191: the rest of the block makes room *)
          let '(start, b1, count1) :=
            match found with
            | Some (s, e, _, _) =>
                (s, patch b (Z.to_nat (Z.of_nat e + (new_size - old_size))) (firstn (Z.to_nat (h_used h) - e) (skipn e b)), u32 (h_count h - 1))
            | None => (Z.to_nat (h_used h), b, h_count h)
            end in
          (* lines 192-201 *)
          let (w, ok) := fit (Z.to_nat new_size) (pieces key v) in
          let b2 := patch b1 start w in
          if negb (length b2 =? length b)%nat then Undef
          else if negb ok then Done (np_could_not_write_total_length, b2)
          else if negb (Z.of_nat (length w) =? new_size) then Aborts
          else Done (write_header b2 (mkHdr (h_total h) (h_used h + new_size - old_size) (u32 (count1 + 1)))))
    | (e, _) => Done (e, b)
    end.

(** neuropil_data.c:235-248 np_get_data_size, 250-263 np_get_object_count *)
Definition np_get_data_size (b : list Z) : rc * Z :=
  match read_header b with (np_data_ok, h) => (np_data_ok, h_used h) | (e, _) => (e, 0) end.
Definition np_get_object_count (b : list Z) : rc * Z :=
  match read_header b with (np_data_ok, h) => (np_data_ok, h_count h) | (e, _) => (e, 0) end.

(** neuropil_data.c:73-91: the callback with its user data.  The end of the area is not set for the first object and 21
    bytes too far for the others (lines 69, 85), so an object that cannot be read means reading beyond the block. *)
Fixpoint iterate_from {S} (callback : S -> list Z -> datum -> S * bool) (n : nat) (start : nat) (b : list Z) (s : S) : run (rc * S) :=
  match n with
  | O => Done (np_data_ok, s)
  | Datatypes.S n' =>
      rbind (read_object (skipn start b)) (fun r =>
      match r with
      | (np_data_ok, Some (k, v, len)) =>
          let (s', go_on) := callback s k v in
          if go_on then iterate_from callback n' (start + len) b s' else Done (np_invalid_arguments, s')
      | _ => Undef
      end)
  end.
(** neuropil_data.c:53-95 np_iterate_data *)
Definition np_iterate_data {S} (callback : S -> list Z -> datum -> S * bool) (b : list Z) (s : S) : run (rc * S) :=
  if (length b <? overhead)%nat then Undef
  else
    match read_header b with
    | (np_data_ok, h) => if h_count h >? 65535 then Undef else iterate_from callback (Z.to_nat (h_count h)) overhead b s
    | (e, _) => Done (e, s)
    end.

(** neuropil_data.c:278-296 *)
Fixpoint merge_from (n : nat) (start : nat) (area : list Z) (dest : list Z) : run (rc * list Z) :=
  match n with
  | O => Done (np_data_ok, dest)
  | S n' =>
      rbind (read_object (skipn start area)) (fun r =>
      match r with
      | (np_data_ok, Some (k, v, len)) =>
          rbind (np_set_data dest k v) (fun d =>
          match d with
          | (np_data_ok, dest') => merge_from n' (start + len) area dest'
          | _ => Done d
          end)
      | _ => Done (np_invalid_structure, dest)
      end)
  end.
(** neuropil_data.c:265-300 np_merge_data for two different blocks *)
Definition np_merge_data (dest src : list Z) : run (rc * list Z) :=
  if (length src <? overhead)%nat then Undef
  else
    match read_header src with
    | (np_data_ok, h) =>
        if (h_used h >? Z.of_nat (length src)) || (h_count h >? 65535) then Undef
        else merge_from (Z.to_nat (h_count h)) overhead (firstn (Z.to_nat (h_used h)) src) dest
    | (e, _) => Done (e, dest)
    end.
