(** Model of src/np_dhkey.c: 256 bit keys as eight 32 bit words.
    A key is the list of its words t[0..7] (np_dhkey_s, include/np_dhkey.h:16-20);
    [wf_key] says that it has the C shape.  Log calls are not modelled. *)
From Verif Require Import Base.

Definition key := list Z.

Definition is_word (w : Z) : Prop := 0 <= w < 4294967296.
Definition wf_key (k : key) : Prop := length k = 8%nat /\ Forall is_word k.

(** src/np_dhkey.c:150-154 _np_dhkey_equal: compare word by word, stop at first difference. *)
Fixpoint np_dhkey_equal (k1 k2 : key) : bool :=
  match k1, k2 with
  | a :: k1', b :: k2' => if negb (a =? b) then false else np_dhkey_equal k1' k2'
  | _, _ => true
  end.

(** src/np_dhkey.c:160-164: the loop of _np_dhkey_cmp over the eight words. *)
Fixpoint np_dhkey_cmp_loop (k1 k2 : key) : Z :=
  match k1, k2 with
  | a :: k1', b :: k2' =>
      if a >? b then 1 else if a <? b then -1 else np_dhkey_cmp_loop k1' k2'
  | _, _ => 0
  end.

(** src/np_dhkey.c:156-165 _np_dhkey_cmp; [None] models a NULL pointer. *)
Definition np_dhkey_cmp_ptr (k1 k2 : option key) : Z :=
  match k1 with
  | None => -1
  | Some a => match k2 with
              | None => 1
              | Some b => np_dhkey_cmp_loop a b
              end
  end.

Definition np_dhkey_cmp (a b : key) : Z := np_dhkey_cmp_ptr (Some a) (Some b).

(** word-wise operations of src/np_dhkey.c:167-239; C computes in uint32_t. *)
Fixpoint map2 (f : Z -> Z -> Z) (a b : list Z) : list Z :=
  match a, b with
  | x :: a', y :: b' => f x y :: map2 f a' b'
  | _, _ => []
  end.

(** src/np_dhkey.c:167-183 _np_dhkey_add *)
Definition np_dhkey_add (a b : key) : key := map2 (fun x y => u32 (x + y)) a b.
(** src/np_dhkey.c:185-191 _np_dhkey_sub *)
Definition np_dhkey_sub (a b : key) : key := map2 (fun x y => u32 (x - y)) a b.
(** src/np_dhkey.c:193-207 _np_dhkey_and *)
Definition np_dhkey_and (a b : key) : key := map2 Z.land a b.
(** src/np_dhkey.c:209-223 _np_dhkey_or *)
Definition np_dhkey_or (a b : key) : key := map2 Z.lor a b.
(** src/np_dhkey.c:225-239 _np_dhkey_xor *)
Definition np_dhkey_xor (a b : key) : key := map2 Z.lxor a b.

(** src/np_dhkey.c:281-300 _np_dhkey_init: min / half / max; half = (UINT32_MAX >> 1) + 1 *)
Definition dhkey_min  : key := repeat 0 8.
Definition dhkey_half : key := repeat 2147483648 8.
Definition dhkey_max  : key := repeat 4294967295 8.

(** src/np_dhkey.c:313-326 _np_dhkey_distance *)
Definition np_dhkey_distance (k1 k2 : key) : key :=
  let diff := if np_dhkey_cmp k1 k2 >? 0 then np_dhkey_sub k1 k2 else np_dhkey_sub k2 k1 in
  if np_dhkey_cmp dhkey_half diff <? 0 then np_dhkey_sub dhkey_max diff else diff.

(** __builtin_popcount on a 32 bit word: number of one bits. *)
Fixpoint popcount_pos (p : positive) : Z :=
  match p with
  | xH => 1
  | xO q => popcount_pos q
  | xI q => 1 + popcount_pos q
  end.
Definition popcount (z : Z) : Z :=
  match z with Zpos p => popcount_pos p | _ => 0 end.

(** src/np_dhkey.c:328-359 _np_dhkey_hamming_distance; the accumulator is a uint8_t,
    each "*diff += popcount" truncates to 8 bit. *)
Definition np_dhkey_hamming_distance (x y : key) : Z :=
  fold_left (fun diff v => u8 (diff + popcount v)) (map2 Z.lxor x y) 0.

(** src/np_dhkey.c:361-394 _np_dhkey_hamming_distance_each *)
Definition np_dhkey_hamming_distance_each (x y : key) : key :=
  map popcount (map2 Z.lxor x y).

(** src/np_dhkey.c:396-425 _np_dhkey_between *)
Definition np_dhkey_between (test left right : key) (includeBounds : bool) : bool :=
  let comp_lt := np_dhkey_cmp left test in
  let comp_tr := np_dhkey_cmp test right in
  let comp_lr := np_dhkey_cmp left right in
  if (comp_lt =? 0) || (comp_tr =? 0) then includeBounds
  else if comp_lr <? 0 then (comp_lt <? 0) && (comp_tr <? 0)
  else (comp_lt <? 0) || (comp_tr <? 0).

(** src/np_dhkey.c:427-432 _np_dhkey_midpoint *)
Definition np_dhkey_midpoint (k : key) : key :=
  if np_dhkey_cmp k dhkey_half <? 0 then np_dhkey_add k dhkey_half
  else np_dhkey_sub k dhkey_half.

(** Memory image of a key: t[i] is stored little endian (x86-64, aarch64). *)
Definition word_bytes (w : Z) : list Z :=
  [w mod 256; (w / 256) mod 256; (w / 65536) mod 256; (w / 16777216) mod 256].
Definition key_bytes (k : key) : list Z := flat_map word_bytes k.
Definition bytes_word (a b c d : Z) : Z := a + 256 * b + 65536 * c + 16777216 * d.
Fixpoint bytes_key (l : list Z) : key :=
  match l with
  | a :: b :: c :: d :: l' => bytes_word a b c d :: bytes_key l'
  | _ => []
  end.

(** src/np_dhkey.c:453-463: loop of _np_dhkey_index over the bytes; ret is a uint8_t. *)
Fixpoint np_dhkey_index_loop (a b : list Z) (ret : Z) : Z :=
  match a, b with
  | x :: a', y :: b' =>
      if negb (Z.land x 240 =? Z.land y 240) then ret
      else
        let ret := u8 (ret + 1) in
        if negb (Z.land x 15 =? Z.land y 15) then ret
        else np_dhkey_index_loop a' b' (u8 (ret + 1))
  | _, _ => ret
  end.
(** src/np_dhkey.c:443-464 _np_dhkey_index *)
Definition np_dhkey_index (a b : key) : Z :=
  np_dhkey_index_loop (key_bytes a) (key_bytes b) 0.

(** src/np_dhkey.c:471-513 _np_dhkey_hexalpha_at.  [None] models the out-of-bounds
    read of key->t[tuple] for an index outside 0..63 (int8_t argument). *)
Definition np_dhkey_hexalpha_at (k : key) (index : Z) : option Z :=
  if (index <? 0) then None else
  let tuple := index / 8 in
  let tuple_rest := index mod 8 in
  match nth_error k (Z.to_nat tuple) with
  | None => None
  | Some w =>
      let answer := nth (Z.to_nat (tuple_rest / 2)) (word_bytes w) 0 in
      let answer := if tuple_rest mod 2 =? 0 then Z.shiftr answer 4 else answer in
      Some (Z.land answer 15)
  end.

(** sodium_bin2hex (libsodium, not in /repo): two lower case hex digits per byte,
    high nibble first.  Called by np_id_str, src/neuropil.c:1061-1074. *)
Definition hexdigit (n : Z) : Z := if n <? 10 then 48 + n else 87 + n.
Definition bin2hex (l : list Z) : list Z :=
  flat_map (fun b => [hexdigit (b / 16); hexdigit (b mod 16)]) l.
(** src/np_dhkey.c:515-517 _np_dhkey_str *)
Definition np_dhkey_str (k : key) : list Z := bin2hex (key_bytes k).

(** isxdigit in the C locale. *)
Definition hexval (c : Z) : option Z :=
  if (48 <=? c) && (c <=? 57) then Some (c - 48)
  else if (97 <=? c) && (c <=? 102) then Some (c - 87)
  else if (65 <=? c) && (c <=? 70) then Some (c - 55)
  else None.

(** sodium_hex2bin with both "ignore" and "end" NULL: pairs of hex digits; a non-digit
    stops the conversion (None: np_str_id's ASSERT fails, src/neuropil.c:1076-1089). *)
Fixpoint hex2bin (l : list Z) : option (list Z) :=
  match l with
  | [] => Some []
  | a :: b :: l' =>
      match hexval a, hexval b, hex2bin l' with
      | Some x, Some y, Some r => Some (16 * x + y :: r)
      | _, _, _ => None
      end
  | _ => None
  end.

(** src/np_dhkey.c:77-108 np_dhkey_create_from_hash.  The argument is the C string content
    up to its terminator (or up to 64 bytes: strnlen(s,64)). *)
Definition np_dhkey_create_from_hash (s : list Z) : key :=
  let s := firstn 64 s in
  if negb (Nat.eqb (length s) 64) then dhkey_min
  else if negb (forallb (fun c => match hexval c with Some _ => true | None => false end) s)
  then dhkey_min
  else match hex2bin s with
       | Some l => bytes_key l
       | None => dhkey_min
       end.

(** src/np_dhkey.c:241-279 _np_dhkey_rotate_left.  [UB] when a shift count is >= 32
    (bits = 0 gives left_shift = 32; bits > 32 makes left_shift a large uint8_t). *)
Definition rot_word (bits : Z) (cur next : Z) : Z :=
  let left_shift := 32 - bits in
  let bit_mask := u32 (Z.shiftl 4294967295 left_shift) in
  Z.lor (u32 (Z.shiftl cur bits)) (Z.shiftr (Z.land next bit_mask) left_shift).
Fixpoint rot_words (bits first : Z) (k : list Z) : list Z :=
  match k with
  | [] => []
  | [w] => [rot_word bits w first]
  | w :: ((w' :: _) as k') => rot_word bits w w' :: rot_words bits first k'
  end.
Definition np_dhkey_rotate_left (k : key) (bits : Z) : outcome key :=
  if (1 <=? bits) && (bits <=? 31) then Ok (rot_words bits (hd 0 k) k) else UB.
