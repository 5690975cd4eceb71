(** CBOR as QCBOR writes and reads it, as far as neuropil uses it.

    The QCBOR library is not part of the repository: this file follows RFC 8949 (heads of data items, shortest form) and
    is part of the trusted base.  Not modelled: indefinite lengths (never written), the limits of QCBOR on the nesting
    (15 levels) and on the number of items in one array or map. *)
From Verif Require Import Base.

(** The [n] low bytes of [v], most significant first *)
Fixpoint be (n : nat) (v : Z) : list Z :=
  match n with O => [] | S n' => (v / 256 ^ Z.of_nat n') mod 256 :: be n' v end.
Fixpoint unbe (bs : list Z) (acc : Z) : Z :=
  match bs with [] => acc | b :: bs' => unbe bs' (acc * 256 + b) end.

(** RFC 8949 section 3: major type and argument, shortest form *)
Definition head (major arg : Z) : list Z :=
  if arg <? 24 then [major * 32 + arg]
  else if arg <? 256 then (major * 32 + 24) :: be 1 arg
  else if arg <? 65536 then (major * 32 + 25) :: be 2 arg
  else if arg <? 4294967296 then (major * 32 + 26) :: be 4 arg
  else (major * 32 + 27) :: be 8 arg.

(** np_serialize_qcbor.c:19-38 AppendCBORHeadWithSize with uMinLen 4 *)
Definition head4 (major arg : Z) : list Z :=
  if arg <? 4294967296 then (major * 32 + 26) :: be 4 arg else (major * 32 + 27) :: be 8 arg.

Definition enc_int (z : Z) : list Z := if z <? 0 then head 1 (-1 - z) else head 0 z.
Definition enc_bytes (b : list Z) : list Z := head 2 (Z.of_nat (length b)) ++ b.
Definition enc_text (b : list Z) : list Z := head 3 (Z.of_nat (length b)) ++ b.
Definition enc_tag (t : Z) : list Z := head 6 t.
(** Single and double precision numbers at full width, given by their bits *)
Definition enc_float (bits : Z) : list Z := 250 :: be 4 bits.
Definition enc_double (bits : Z) : list Z := 251 :: be 8 bits.

(** The first [n] bytes and the rest; None if there are fewer *)
Definition split_at (n : nat) (bs : list Z) : option (list Z * list Z) :=
  if (n <=? length bs)%nat then Some (firstn n bs, skipn n bs) else None.

(** A head: major type, additional information, argument, rest *)
Definition get_head (bs : list Z) : option (Z * Z * Z * list Z) :=
  match bs with
  | [] => None
  | b :: rest =>
      let major := b / 32 in
      let info := b mod 32 in
      let arg n := match split_at n rest with
                   | Some (a, rest') => Some (major, info, unbe a 0, rest')
                   | None => None
                   end in
      if info <? 24 then Some (major, info, info, rest)
      else if info =? 24 then arg 1%nat
      else if info =? 25 then arg 2%nat
      else if info =? 26 then arg 4%nat
      else if info =? 27 then arg 8%nat
      else None
  end.

(** What QCBORDecode_VGetNext delivers *)
Inductive item :=
| IInt (z : Z)           (* QCBOR_TYPE_INT64 *)
| IUint64 (z : Z)        (* QCBOR_TYPE_UINT64: above INT64_MAX *)
| IBytes (b : list Z)
| IText (b : list Z)
| IArray (n : Z)
| IMap (n : Z)
| IFloat (bits : Z)
| IDouble (bits : Z)
| IOther.                (* null, booleans, ... *)

Definition int64_max : Z := 9223372036854775807.

(** One item that is not a tag *)
Definition get_untagged (major info arg : Z) (rest : list Z) : option (item * list Z) :=
  if major =? 0 then Some (if arg <=? int64_max then IInt arg else IUint64 arg, rest)
  else if major =? 1 then if arg <=? int64_max then Some (IInt (-1 - arg), rest) else None
  else if major =? 2 then match split_at (Z.to_nat arg) rest with Some (b, rest') => Some (IBytes b, rest') | None => None end
  else if major =? 3 then match split_at (Z.to_nat arg) rest with Some (b, rest') => Some (IText b, rest') | None => None end
  else if major =? 4 then Some (IArray arg, rest)
  else if major =? 5 then Some (IMap arg, rest)
  else if info =? 26 then Some (IFloat arg, rest)
  else if info =? 27 then Some (IDouble arg, rest)
  else Some (IOther, rest).

(** QCBORDecode_VGetNext: tags (innermost first, as in uTags), item, rest; None: error.  At most [n] heads are read. *)
Fixpoint get_next (n : nat) (tags : list Z) (bs : list Z) : option (list Z * item * list Z) :=
  match n with
  | O => None
  | S n' =>
      match get_head bs with
      | None => None
      | Some (major, info, arg, rest) =>
          if major =? 6 then get_next n' (arg :: tags) rest
          else match get_untagged major info arg rest with
               | Some (i, rest') => Some (tags, i, rest')
               | None => None
               end
      end
  end.
Definition next (bs : list Z) : option (list Z * item * list Z) := get_next (S (length bs)) [] bs.
