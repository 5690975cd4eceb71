(** Model of the bloom filters: src/util/np_bloom.c.
    A filter works on the eight 32 bit words of a key.  Byte arrays carry their length, so that an access outside is
    visible.  Loops over all bytes touch every byte once and independently of the others; they are written as one
    change of the whole array, after checking that the uint16_t loop variable can reach the end ([Abort] stands for
    "does not return" there).  The list based "enhanced" filter (np_bloom.c:32-377, used nowhere), serialisation and
    debug output are not modelled. *)
From Verif Require Import Base Dhkey_Model.

(** * Byte arrays *)
Record mem := mkMem { len : Z; at_ : Z -> Z }.
Definition calloc (n : Z) : mem := mkMem n (fun _ => 0).
Definition rd (m : mem) (i : Z) : outcome Z := if (0 <=? i) && (i <? len m) then Ok (at_ m i) else UB.
Definition put (m : mem) (i v : Z) : mem := mkMem (len m) (fun j => if j =? i then v else at_ m j).
(** read, change and write one byte *)
Definition modify (m : mem) (i : Z) (f : Z -> Z) : outcome mem := obind (rd m i) (fun v => Ok (put m i (f v))).
(** [for (uint16_t k = 0; k < n; k++)] over the bytes *)
Definition loop16 (m : mem) (n : Z) (f : Z -> Z -> Z) : outcome mem :=
  if 65535 <? n then Abort
  else if len m <? n then UB
  else Ok (mkMem (len m) (fun k => if (0 <=? k) && (k <? n) then f k (at_ m k) else at_ m k)).
Definition zrange (n : Z) : list Z := map Z.of_nat (seq 0 (Z.to_nat n)).

(** include/util/np_bloom.h:57-84; [rnd]: numbers the filter's own generator will give (np_pcg_rng.c) *)
Record bloom := mkBloom { size : Z; d : Z; p : Z; num_blocks : Z; bits : mem; free_items : Z; rnd : list Z }.
Definition set_bits (b : bloom) (m : mem) : bloom := mkBloom (size b) (d b) (p b) (num_blocks b) m (free_items b) (rnd b).
Definition set_free (b : bloom) (n : Z) : bloom := mkBloom (size b) (d b) (p b) (num_blocks b) (bits b) n (rnd b).
Definition set_rnd (b : bloom) (l : list Z) : bloom := mkBloom (size b) (d b) (p b) (num_blocks b) (bits b) (free_items b) l.
Definition set_p (b : bloom) (n : Z) : bloom := mkBloom (size b) (d b) n (num_blocks b) (bits b) (free_items b) (rnd b).
Definition set_size (b : bloom) (n : Z) : bloom := mkBloom n (d b) (p b) (num_blocks b) (bits b) (free_items b) (rnd b).
Definition set_num (b : bloom) (n : Z) : bloom := mkBloom (size b) (d b) (p b) n (bits b) (free_items b) (rnd b).

(** run [g] for every word of the key, and check every word (stopping at the first failure) *)
Fixpoint each (ws : list Z) (g : Z -> mem -> outcome mem) (m : mem) : outcome mem :=
  match ws with [] => Ok m | w :: ws' => obind (g w m) (each ws' g) end.
Fixpoint every (ws : list Z) (c : Z -> outcome bool) : outcome bool :=
  match ws with [] => Ok true | w :: ws' => obind (c w) (fun r => if r then every ws' c else Ok false) end.
(** w % size; a size of zero is a division by zero *)
Definition modulo (w n : Z) : outcome Z := if n =? 0 then UB else Ok (w mod n).

(** * Standard filter *)
(** np_bloom.c:379-402 _np_standard_bloom_create *)
Definition standard_create (bit_size : Z) : bloom := mkBloom bit_size 1 0 1 (calloc (bit_size / 8)) (u16 (bit_size / 16)) [].
(** np_bloom.c:409-438 _np_standard_bloom_add; [off]: start of the block written to *)
Definition set_bit (off n w : Z) (m : mem) : outcome mem :=
  obind (modulo w n) (fun pos => modify m (off + pos / 8) (fun v => Z.lor v (Z.shiftr 128 (pos mod 8)))).
Definition standard_add (b : bloom) (id : key) : outcome bloom :=
  if free_items b =? 0 then Abort
  else obind (each id (set_bit 0 (size b)) (bits b)) (fun m => Ok (set_free (set_bits b m) (u16 (free_items b - 1)))).
(** np_bloom.c:440-460 _np_standard_bloom_check *)
Definition test_bit (off n : Z) (m : mem) (w : Z) : outcome bool :=
  obind (modulo w n) (fun pos => obind (rd m (off + pos / 8)) (fun v => Ok (negb (Z.land v (Z.shiftr 128 (pos mod 8)) =? 0)))).
Definition standard_check (b : bloom) (id : key) : outcome bool := every id (test_bit 0 (size b) (bits b)).
(** np_bloom.c:462-478 _np_standard_bloom_intersect *)
Definition same_shape (a b : bloom) : bool := (size a =? size b) && (d a =? d b) && (num_blocks a =? num_blocks b).
Definition standard_intersect (r f : bloom) : outcome (bool * bloom) :=
  if negb (same_shape f r) then Abort
  else let n := size r / 8 * d r in
       if len (bits f) <? n then UB
       else obind (loop16 (bits r) n (fun k v => Z.land v (at_ (bits f) k)))
              (fun m => Ok (existsb (fun k => negb (at_ m k =? 0)) (zrange n), set_free (set_bits r m) 0)).
(** np_bloom.c:480-494 _np_standard_bloom_union *)
Definition standard_union (r f : bloom) : outcome bloom :=
  if negb (same_shape f r) then Abort
  else if free_items f + free_items r <? size r / 16 then Abort
  else let n := size r / 8 * d r in
       if len (bits f) <? n then UB
       else obind (loop16 (bits r) n (fun k v => Z.lor v (at_ (bits f) k)))
              (fun m => Ok (set_free (set_bits r m) (u16 (free_items r + (free_items f - size r / 16))))).
(** np_bloom.c:496-506 _np_standard_bloom_clear (also used for the decaying and the stable filter) *)
Definition standard_clear (b : bloom) : outcome bloom :=
  let n := size b / 8 * d b in
  if n <? num_blocks b * size b * d b / 8 then UB
  else Ok (set_free (set_bits b (calloc n)) (u16 (size b * d b / 16))).

(** * Scalable filter *)
(** np_bloom.c:603-615 *)
Definition scalable_create (n : Z) : bloom := mkBloom n 1 0 1 (calloc (n / 8)) (u16 (n / 16)) [].
(** realloc keeps the bytes that fit *)
Definition realloc (m : mem) (n : Z) : mem := mkMem n (at_ m).
(** np_bloom.c:617-653 _np_scalable_bloom_add *)
Definition scalable_grow (b : bloom) : outcome bloom :=
  let bs := size b / 8 * d b in
  let x := u16 (bs * num_blocks b) in
  let nb := u8 (num_blocks b + 1) in
  let m := realloc (bits b) (bs * nb) in
  if len m <? x + bs then UB
  else Ok (mkBloom (size b) (d b) (p b) nb (mkMem (len m) (fun k => if (x <=? k) && (k <? x + bs) then 0 else at_ m k))
             (u16 (free_items b + size b / 16)) (rnd b)).
Definition scalable_add (b : bloom) (id : key) : outcome bloom :=
  obind (if free_items b =? 0 then scalable_grow b else Ok b) (fun b1 =>
  obind (each id (set_bit (u16 ((num_blocks b1 - 1) * size b1 / 8 * d b1)) (size b1)) (bits b1)) (fun m =>
  Ok (set_free (set_bits b1 m) (u16 (free_items b1 - 1))))).
(** np_bloom.c:655-682 _np_scalable_bloom_check; the inner loop does not stop early *)
Fixpoint every_full (ws : list Z) (c : Z -> outcome bool) : outcome bool :=
  match ws with [] => Ok true | w :: ws' => obind (c w) (fun r => obind (every_full ws' c) (fun r' => Ok (r && r'))) end.
Fixpoint any_block (js : list Z) (c : Z -> outcome bool) (last : bool) : outcome bool :=
  match js with [] => Ok last | j :: js' => obind (c j) (fun r => if r then Ok true else any_block js' c r) end.
Definition scalable_check (b : bloom) (id : key) : outcome bool :=
  any_block (zrange (num_blocks b)) (fun j => every_full id (test_bit (u16 (j * size b / 8 * d b)) (size b) (bits b))) true.

(** * Decaying filter (cells of d = 8 or 16 bits; a 16 bit cell is kept as one number) *)
(** np_bloom.c:684-699.  The array has one entry per cell here. *)
Definition decaying_create (n dd pp : Z) : bloom := mkBloom n dd pp 1 (calloc n) (u16 (n * dd / 16)) [].
(** np_bloom.c:700-730 _np_decaying_bloom_decay: [uint16_t k < size] *)
Definition decaying_decay (b : bloom) : outcome bloom :=
  obind (loop16 (bits b) (size b) (fun _ v => if (d b =? 8) || (d b =? 16) then if 0 <? v then Z.shiftr v (p b) else v else v))
    (fun m => Ok (set_free (set_bits b m)
       (u16 (Z.of_nat (length (filter (fun k => ((d b =? 8) || (d b =? 16)) && (at_ m k =? 0)) (zrange (size b)))) * d b / 16)))).
(** np_bloom.c:732-758 _np_decaying_bloom_add *)
Definition decaying_set (n dd w : Z) (m : mem) : outcome mem :=
  obind (modulo w n) (fun pos => if (dd =? 8) || (dd =? 16) then modify m pos (fun v => Z.lor v (Z.shiftl 1 (dd - 1))) else Ok m).
Definition decaying_add (b : bloom) (id : key) : outcome bloom :=
  if free_items b =? 0 then Abort
  else obind (each id (decaying_set (size b) (d b)) (bits b)) (fun m => Ok (set_free (set_bits b m) (u16 (free_items b - 1)))).
(** np_bloom.c:760-784 _np_decaying_bloom_check *)
Definition decaying_test (n dd : Z) (m : mem) (w : Z) : outcome bool :=
  obind (modulo w n) (fun pos => if (dd =? 8) || (dd =? 16) then obind (rd m pos) (fun v => Ok (negb (v =? 0))) else Ok true).
Definition decaying_check (b : bloom) (id : key) : outcome bool := every id (decaying_test (size b) (d b) (bits b)).
(** np_bloom.c:496-506 on a decaying filter: size/8*d bytes are size cells of 16 bits, or of 8 bits *)
Definition decaying_clear (b : bloom) : outcome bloom :=
  if size b / 8 * d b <? num_blocks b * size b * d b / 8 then UB
  else Ok (set_free (set_bits b (calloc (size b / 8 * d b / (d b / 8)))) (u16 (size b * d b / 16))).

(** * Stable filter *)
(** np_bloom.c:508-526 *)
Definition stable_create (n dd pp : Z) (r : list Z) : outcome bloom :=
  if n mod 2 =? 0 then Ok (mkBloom n dd pp 1 (calloc (Z.shiftr (n * dd) 3)) (u16 (Z.shiftr (n * dd) 4)) r) else Abort.
(** np_bloom.c:537-556: prune eight neighbouring cells per random number; the filter's free count is a uint16_t.
    [killed] counts cells that were 1 *)
Definition stable_cell (b : bloom) (w : Z) : Z := Z.shiftr (u32 (Z.land w (size b - 1) * d b)) 3.
Fixpoint prune8 (b : bloom) (r : Z) (qs : list Z) (m : mem) (killed : Z) : outcome (mem * Z) :=
  match qs with
  | [] => Ok (m, killed)
  | q :: qs' => let a := stable_cell b (u32 (r + q)) in
                obind (rd m a) (fun v => prune8 b r qs' (put m a (Z.shiftr v 1)) (if v =? 1 then killed + 1 else killed))
  end.
Fixpoint prune (b : bloom) (n : nat) (rs : list Z) (m : mem) (killed : Z) : outcome (mem * Z * list Z) :=
  match n with
  | O => Ok (m, killed, rs)
  | S n' => match rs with
            | [] => Ok (m, killed, rs)                      (* no further numbers known: not reached in the statements *)
            | r :: rs' => obind (prune8 b r [0; 1; 2; 3; 4; 5; 6; 7] m killed) (fun '(m1, k1) => prune b n' rs' m1 k1)
            end
  end.
(** np_bloom.c:528-576 _np_stable_bloom_add *)
Definition stable_add (b : bloom) (id : key) : outcome bloom :=
  obind (prune b (Z.to_nat (p b)) (rnd b) (bits b) 0) (fun '(m, killed, rs) =>
  obind (each id (fun w m => modify m (stable_cell b w) (fun _ => 15)) m) (fun m' =>
  Ok (set_rnd (set_free (set_bits b m') (u16 (u16 (free_items b + Z.shiftr killed 3) - 1))) rs))).
(** np_bloom.c:578-601 _np_stable_bloom_check: also adds the item *)
Definition stable_test (b : bloom) (w : Z) : outcome bool := obind (rd (bits b) (stable_cell b w)) (fun v => Ok (negb (v =? 0))).
Definition stable_check (b : bloom) (id : key) : outcome (bool * bloom) :=
  obind (every id (stable_test b)) (fun r => obind (stable_add b id) (fun b' => Ok (r, b'))).

(** * Counting filter *)
(** np_bloom.c:827-846 *)
Definition counting_create (n dd pp : Z) : outcome bloom :=
  if (8 <=? dd) && (dd mod 2 =? 0) && (1 <=? pp)
  then Ok (mkBloom n dd pp 1 (calloc (n * Z.shiftr dd 3)) (u16 (Z.shiftr (n * dd) 4)) []) else Abort.
Definition counting_cell (n dd w : Z) : outcome Z := obind (modulo w n) (fun pos => Ok (Z.shiftr (u32 (pos * dd)) 3)).
(** np_bloom.c:866-887 _np_counting_bloom_add *)
Definition counting_add (b : bloom) (id : key) : outcome bloom :=
  if free_items b =? 0 then Abort
  else obind (each id (fun w m => obind (counting_cell (size b) (d b) w) (fun a => modify m a (fun v => u8 (v + 1)))) (bits b))
         (fun m => Ok (set_free (set_bits b m) (u16 (free_items b - 1)))).
(** np_bloom.c:889-910 _np_counting_bloom_remove *)
Definition counting_remove (b : bloom) (id : key) : outcome bloom :=
  if free_items b =? 0 then Abort
  else obind (each id (fun w m => obind (counting_cell (size b) (d b) w) (fun a => modify m a (fun v => if 0 <? v then u8 (v - 1) else v))) (bits b))
         (fun m => Ok (set_free (set_bits b m) (u16 (free_items b + 1)))).
(** np_bloom.c:912-930 _np_counting_bloom_check *)
Definition counting_check (b : bloom) (id : key) : outcome bool :=
  every_full id (fun w => obind (counting_cell (size b) (d b) w) (fun a => obind (rd (bits b) a) (fun v => Ok (negb ((v =? 0) || (v =? 255)))))).
(** np_bloom.c:932-952 _np_counting_bloom_check_r: positions by masking; stops at an empty or saturated cell *)
Definition masked_cell (b : bloom) (w : Z) : Z := Z.shiftr (u32 (Z.land w (size b - 1) * d b)) 3.
Fixpoint load (b : bloom) (ws : list Z) (count : Z) : outcome Z :=
  match ws with
  | [] => Ok count
  | w :: ws' => obind (rd (bits b) (masked_cell b w)) (fun v =>
                  if (v =? 0) || (v =? 255) then Ok count else load b ws' (if count <? v then v else count))
  end.
Definition counting_check_r (b : bloom) (id : key) (count : Z) : outcome Z := load b id count.
(** np_bloom.c:853-864 _np_counting_bloom_clear_r; [item_count] is 0 before *)
Definition counting_clear_r (b : bloom) : outcome (Z * bloom) :=
  let n := Z.shiftr (size b * d b) 3 in
  if len (bits b) <? n then UB
  else let m := mkMem (len (bits b)) (fun k => if (0 <=? k) && (k <? n) then Z.shiftr (at_ (bits b) k) (p b) else at_ (bits b) k) in
       let zeroed := 1 + Z.of_nat (length (filter (fun k => at_ (bits b) k =? 1) (zrange n))) in
       let items := fold_left (fun c k => if c <? at_ m k then at_ m k else c) (zrange n) 0 in
       let f := u16 (free_items b + u32 (Z.shiftl (u32 (items * zeroed)) (p b))) in
       let top := Z.shiftr (size b * d b) 4 in
       Ok (items, set_free (set_bits b m) (if top <? f then u16 top else f)).

(** * Rate limit per peer: src/np_network.c:119-130 (filters), 684-722 (incoming), 299-318 and 370-373 (outgoing), 90-115 (periodic) *)
Record limiter := mkLimiter { max_per_sec : Z; filter_ : bloom }.
Definition limiter_init (configured : Z) : outcome limiter :=
  obind (counting_create 8192 8 1) (fun b => Ok (mkLimiter (if 0 <? configured then configured else 256) b)).
(** a packet from (or to) a peer: [true] if it is let through *)
Definition packet (l : limiter) (peer : key) : outcome (bool * limiter) :=
  if 0 <? max_per_sec l
  then obind (counting_check_r (filter_ l) peer 0) (fun c =>
         if max_per_sec l <? c then Ok (false, l)
         else obind (counting_add (filter_ l) peer) (fun b => Ok (true, mkLimiter (max_per_sec l) b)))
  else Ok (true, l).
Definition period (l : limiter) : outcome limiter :=
  obind (counting_clear_r (filter_ l)) (fun '(_, b) => Ok (mkLimiter (max_per_sec l) b)).

(** * The routing ("neuropil") filter *)
(** np_bloom.c:1000-1020; 4 blocks of 255 cells of an age byte and a count byte *)
Definition nbf_create : bloom := mkBloom 255 16 0 4 (calloc (4 * (255 * 16 / 8))) 64 [].
(** np_bloom.c:1022-1032 *)
Definition nbf_clear (b : bloom) : bloom := nbf_create.
(** np_bloom.c:1043-1050: byte address of the age of the cell for word [w] in block [blk] (counted from 0) *)
Definition nbf_addr (b : bloom) (blk w : Z) : Z :=
  blk * (size b * d b / 8) + ((w mod 3 + 1) * (w mod 5 + 1) * (w mod 17 + 1) - 1) * 2.
(** two words per block (np_bloom.c:1066: block_index) *)
Fixpoint nbf_addrs (b : bloom) (k : Z) (ws : list Z) : list Z :=
  match ws with [] => [] | w :: ws' => nbf_addr b (k / 2) w :: nbf_addrs b (k + 1) ws' end.
Definition nbf_touch (fa fc : Z -> Z) (a : Z) (m : mem) : outcome mem :=
  obind (rd m a) (fun va => obind (rd m (a + 1)) (fun vc => Ok (put (put m a (fa va)) (a + 1) (fc vc)))).
(** np_bloom.c:1034-1070 _np_neuropil_bloom_add *)
Definition nbf_add (b : bloom) (id : key) : outcome bloom :=
  if free_items b =? 0 then Abort
  else obind (each (nbf_addrs b 0 id) (nbf_touch (fun a => Z.lor a (Z.shiftl 1 (Z.shiftr (d b) 1 - 1))) (fun c => u8 (c + 1))) (bits b))
         (fun m => Ok (set_free (set_bits b m) (u16 (free_items b - 1)))).
(** np_bloom.c:1072-1103 _np_neuropil_bloom_remove *)
Definition nbf_remove (b : bloom) (id : key) : outcome bloom :=
  if free_items b =? 0 then Abort
  else obind (each (nbf_addrs b 0 id) (nbf_touch (fun a => Z.shiftr a 1) (fun c => u8 (c - 1))) (bits b))
         (fun m => Ok (set_free (set_bits b m) (u16 (free_items b + 1)))).
(** np_bloom.c:1105-1137 _np_neuropil_bloom_check *)
Definition nbf_check (b : bloom) (id : key) : outcome bool :=
  every_full (nbf_addrs b 0 id) (fun a => obind (rd (bits b) a) (fun va => obind (rd (bits b) (a + 1)) (fun vc => Ok (negb ((va =? 0) || (vc =? 0)))))).
(** bytes of all cells *)
Definition nbf_bytes (b : bloom) : Z := num_blocks b * size b * d b / 8.
(** loops [k += 2] over the cells: [fa]/[fc] give the new age and count of the cell at [k] *)
Definition nbf_loop (b : bloom) (fa fc : Z -> Z) : outcome bloom :=
  if len (bits b) <? nbf_bytes b then UB
  else Ok (set_bits b (mkMem (len (bits b)) (fun k => if (0 <=? k) && (k <? nbf_bytes b) then if Z.even k then fa k else fc (k - 1) else at_ (bits b) k))).
Definition age (b : bloom) (k : Z) : Z := at_ (bits b) k.
Definition cnt (b : bloom) (k : Z) : Z := at_ (bits b) (k + 1).
Definition cells (b : bloom) : list Z := map (fun i => 2 * i) (zrange (nbf_bytes b / 2)).
(** np_bloom.c:1139-1150 _np_neuropil_bloom_age_decrement *)
Definition nbf_age_dec (b : bloom) : outcome bloom :=
  nbf_loop b (fun k => if Z.shiftr (d b) 1 <? age b k then age b k - Z.shiftr (d b) 1 else 0) (cnt b).
(** np_bloom.c:1152-1164 _np_neuropil_bloom_age_increment *)
Definition nbf_age_inc (b : bloom) : outcome bloom :=
  nbf_loop b (fun k => if age b k <? 255 - Z.shiftr (d b) 1 then age b k + Z.shiftr (d b) 1 else 255) (cnt b).
(** np_bloom.c:1166-1176 _np_neuropil_bloom_count_decrement *)
Definition nbf_count_dec (b : bloom) : outcome bloom :=
  if free_items b <? 64
  then obind (nbf_loop b (age b) (fun k => if 0 <? cnt b k then cnt b k - 1 else cnt b k)) (fun b' => Ok (set_free b' (u16 (free_items b + 1))))
  else Ok b.
(** np_bloom.c:1178-1212 _np_neuropil_bloom_get_heuristic, times 256: the smallest age, 0 if a count is 0 *)
Fixpoint heuristic (m : mem) (addrs : list Z) (ret : Z) : outcome Z :=
  match addrs with
  | [] => Ok ret
  | a :: r => obind (rd m a) (fun va => obind (rd m (a + 1)) (fun vc => if vc =? 0 then Ok 0 else heuristic m r (if ret <? va then ret else va)))
  end.
Definition nbf_heuristic (b : bloom) (id : key) : outcome Z := heuristic (bits b) (nbf_addrs b 0 id) 256.
Definition nbf_shape (a b : bloom) : bool := (size a =? 255) && same_shape a b.
(** np_bloom.c:1214-1245 _np_neuropil_bloom_intersect *)
Definition nbf_intersect (r t : bloom) : outcome (bool * bloom) :=
  if negb (nbf_shape r t) || (free_items t + free_items r <? 64) then Abort
  else let na := fun k => if age t k <? age r k then age t k else age r k in
       obind (nbf_loop r na (fun k => if 0 <? na k then u8 (cnt r k + cnt t k) else cnt r k))
         (fun b => Ok (existsb (fun k => 0 <? na k) (cells r), set_free b 0)).
(** np_bloom.c:1247-1280 _np_neuropil_bloom_intersect_test; [i], [j] are uint16_t *)
Definition differs (r t : bloom) (k : Z) : bool := ((0 <? age r k) && (age t k =? 0)) || ((age r k =? 0) && (0 <? age t k)).
Definition nbf_intersect_test (r t : bloom) : outcome bool :=
  if negb (nbf_shape r t) then Abort
  else if existsb (differs r t) (cells r) then Ok false
  else let both := filter (fun k => (0 <? age r k) && (0 <? age t k)) (cells r) in
       let i := fold_left (fun c k => u16 (c + cnt t k)) both 0 in
       let j := fold_left (fun c k => if cnt t k <=? cnt r k then u16 (c + cnt t k) else c) both 0 in
       Ok (i =? j).
(** np_bloom.c:1282-1323 _np_neuropil_bloom_intersect_age, times 256; [i] is a uint8_t *)
Definition nbf_intersect_age (r t : bloom) : outcome Z :=
  if negb (nbf_shape r t) then Abort
  else let ks := filter (fun k => 0 <? age t k) (cells r) in
       let i := fold_left (fun c k => u8 (c + cnt t k)) ks 0 in
       let ret := fold_left (fun c k => if 0 <? age r k then if c <? age r k then c else age r k else 0) ks 256 in
       Ok (if i =? 0 then 0 else ret).
(** np_bloom.c:1325-1347 _np_neuropil_bloom_intersect_ignore_age (always true for a non-empty array) *)
Definition nbf_intersect_ignore_age (r t : bloom) : outcome (bool * bloom) :=
  if negb (nbf_shape r t) || (free_items t + free_items r <? 64) then Abort
  else obind (nbf_loop r (age r) (fun k => if (0 <? cnt r k) && (0 <? cnt t k) then u8 (cnt r k + cnt t k) else 0))
         (fun b => Ok (negb (0 =? Z.of_nat (length (cells r))), set_free b 0)).
(** np_bloom.c:1349-1375 _np_neuropil_bloom_union *)
Definition nbf_union (r t : bloom) : outcome bloom :=
  if negb (nbf_shape r t) || (64 <? (64 - free_items r) + (64 - free_items t)) then Abort
  else obind (nbf_loop r (fun k => if 255 <=? age r k + age t k then 255 else age r k + age t k) (fun k => u8 (cnt r k + cnt t k)))
         (fun b => Ok (set_free b (u16 (free_items r + free_items t - 64)))).
(** np_bloom.c:1377-1428 _np_neuropil_bloom_similarity: intersection and union counts (uint16_t); the result is their quotient, or 0 *)
Definition nbf_similarity (a b : bloom) : outcome (Z * Z) :=
  if negb (nbf_shape a b) || (64 <? free_items a) || (64 <? free_items b) then Abort
  else Ok (fold_left (fun c k => if (0 <? cnt a k) && (0 <? cnt b k) then u16 (c + Z.min (cnt a k) (cnt b k)) else c) (cells a) 0,
           fold_left (fun c k => u16 (c + Z.max (cnt a k) (cnt b k))) (cells a) 0).
(** np_bloom.c:1430-1462 _np_neuropil_bloom_containment *)
Definition nbf_containment (a b : bloom) : outcome bool :=
  if negb (nbf_shape a b) || (64 <? free_items a) || (64 <? free_items b) then Abort
  else let ks := filter (fun k => 0 <? cnt b k) (cells a) in
       Ok (Z.of_nat (length (filter (fun k => cnt b k <=? cnt a k) ks)) =? Z.of_nat (length ks)).
(** np_bloom.c:1559-1577 _np_neuropil_bloom_cmp *)
Definition nbf_cmp (a b : bloom) : outcome Z :=
  if negb (nbf_shape a b) then Abort
  else Ok (if existsb (fun k => ((cnt a k =? 0) && (0 <? cnt b k)) || ((cnt b k =? 0) && (0 <? cnt a k))) (cells a) then -1 else 0).
