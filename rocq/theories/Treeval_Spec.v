(** Which values survive a round trip, and which sizes suffice. *)
From Verif Require Import Base Dhkey_Model Rbtree_Model Tree_Model Tree_Spec Cbor_Model Treeval_Model.

Definition vrun (h : list (op (V := tval))) : outcome vtree := run (VOther 0) stored_bytes val_bytes h np_tree_create.

Definition a_double (d : option Z) : Prop := match d with None => True | Some r => Z.abs r <= 9218868437227405312 end.

(** Keys that are written and read back: strings of length one are not, uuids are not *)
Definition storable_key (u : ukey) : Prop :=
  match u with
  | UStr s => length s <> 1%nat /\ (length s <= 255)%nat /\ Forall (fun b => 1 <= b <= 255) s
  | UInt i => -32768 <= i <= 32767
  | UDbl d => a_double d
  | UUlong i => 0 <= i <= 4294967295
  | UDhkey k => wf_key k
  | UUuid _ => False
  end.

(** Values that are written and read back.  A nested tree is the result of a history with keys of one kind. *)
Inductive storable : tval -> Prop :=
| S_short z : -128 <= z <= 127 -> storable (VShort z)
| S_int z : -32768 <= z <= 32767 -> storable (VInt z)
| S_long z : -2147483648 <= z <= 2147483647 -> storable (VLong z)
| S_longlong z : -9223372036854775808 <= z <= 9223372036854775807 -> storable (VLongLong z)
| S_ushort z : 0 <= z <= 255 -> storable (VUshort z)
| S_uint z : 0 <= z <= 65535 -> storable (VUint z)
| S_ulong z : 0 <= z <= 4294967295 -> storable (VUlong z)
| S_ulonglong z : 0 <= z <= 9223372036854775807 -> storable (VUlongLong z)
| S_str s : length s <> 1%nat -> Z.of_nat (length s) <= 4294967295 -> Forall (fun b => 1 <= b <= 255) s -> storable (VStr s)
| S_char c : storable (VChar c)
| S_double d : a_double d -> storable (VDouble d)
| S_uint2 a b : 0 <= a <= 65535 -> 0 <= b <= 65535 -> storable (VUint2 a b)
| S_bin b : Z.of_nat (length b) <= 4294967295 -> storable (VBin b)
| S_hash b : Z.of_nat (length b) <= 4294967295 -> storable (VHash b)
| S_dhkey k : wf_key k -> storable (VDhkey k)
| S_tree w K h t : keys_of_kind K h -> vrun h = Ok t -> Z.of_nat (length (entries t)) <= 32767 ->
    (forall u v, In (u, v) (entries t) -> storable_key u /\ storable v) -> storable (VTree w (entries t)).

(** Values in the range of their types, without the ones whose size comes out too small: unsigned ints from 32768 on,
    hashes of 256 bytes or more.  The smallest int32_t and int64_t have no defined size. *)
Inductive sized : tval -> Prop :=
| Z_short z : -128 <= z <= 127 -> sized (VShort z)
| Z_int z : -32768 <= z <= 32767 -> sized (VInt z)
| Z_long z : -2147483648 < z <= 2147483647 -> sized (VLong z)
| Z_longlong z : -9223372036854775808 < z <= 9223372036854775807 -> sized (VLongLong z)
| Z_ushort z : 0 <= z <= 255 -> sized (VUshort z)
| Z_uint z : 0 <= z <= 32767 -> sized (VUint z)
| Z_ulong z : 0 <= z <= 4294967295 -> sized (VUlong z)
| Z_ulonglong z : 0 <= z <= 18446744073709551615 -> sized (VUlongLong z)
| Z_str s : sized (VStr s)
| Z_char c : sized (VChar c)
| Z_float b : sized (VFloat b)
| Z_double d : sized (VDouble d)
| Z_uint2 a b : 0 <= a <= 65535 -> 0 <= b <= 65535 -> sized (VUint2 a b)
| Z_bin b : Z.of_nat (length b) <= 4294967295 -> sized (VBin b)
| Z_hash b : Z.of_nat (length b) <= 255 -> sized (VHash b)
| Z_dhkey k : wf_key k -> sized (VDhkey k)
| Z_other ty : sized (VOther ty)
| Z_tree w l : (forall u v, In (u, v) l -> sized_key u /\ sized v) -> sized (VTree w l)
with sized_key : ukey -> Prop :=
| Z_kstr s : sized_key (UStr s)
| Z_kint i : -32768 <= i <= 32767 -> sized_key (UInt i)
| Z_kdbl d : sized_key (UDbl d)
| Z_kulong i : 0 <= i <= 4294967295 -> sized_key (UUlong i)
| Z_kdhkey k : wf_key k -> sized_key (UDhkey k)
| Z_kuuid b : sized_key (UUuid b).
